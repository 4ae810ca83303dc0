(** C54: where added lines are shown in a difference. *)
From Coq Require Import Ascii String Arith NArith ZArith Bool List Lia Sorting.Sorted Permutation.
From Verif Require Import PyStr PyStrFacts PyBase PyBaseFacts CfgModel MutModel TreeSpec TreeProofs TreePost TreeRel TreeWorld BraceSpec TreeFull WorldSpec CommitMain TreeMain DiffModel DiffSpec DiffFacts DiffFacts2 PDiff.
Import ListNotations.
Local Open Scope nat_scope.

(** ** Comma separated lists of items of one width *)
Lemma contains_iff p s : contains p s = true <-> exists u z, s = u ++ p ++ z.
Proof.
  assert (St : forall p s, starts_with p s = true <-> exists z, s = p ++ z).
  { clear. induction p as [|a p IH]; intros s; cbn [starts_with app]; [split; [intros _; now exists s|reflexivity]|].
    destruct s as [|c s]; [split; [discriminate|intros (z & E); discriminate]|]. rewrite andb_true_iff, IH, Ascii.eqb_eq. split.
    - intros [-> (z & ->)]. now exists z.
    - intros (z & E). injection E as -> ->. eauto. }
  induction s as [|c s IH]; cbn [contains].
  - rewrite orb_false_r. rewrite St. split; [intros (z & E); exists [], z; exact E|]. intros (u & z & E). symmetry in E. apply app_eq_nil in E as [_ E]. exists z. now symmetry.
  - rewrite orb_true_iff, St, IH. split.
    + intros [(z & E)|(u & z & ->)]; [exists [], z; exact E|exists (c :: u), z; reflexivity].
    + intros ([|a u] & z & E); [left; exists z; exact E|]. injection E as -> ->. right. eauto.
Qed.
Definition commas (s : str) : nat := count_occ ascii_dec s ","%char.
Definition item (s : str) : Prop := ~ In ","%char s.
Lemma commas_app s t : commas (s ++ t) = commas s + commas t.
Proof. apply count_occ_app. Qed.
Lemma commas_item s : item s -> commas s = 0.
Proof. apply count_occ_not_In. Qed.
Lemma join_snoc w w' l : join [","%char] (w :: w' :: l) = w ++ ","%char :: join [","%char] (w' :: l).
Proof. reflexivity. Qed.
Lemma commas_join l : Forall item l -> commas (join [","%char] l) = pred (length l).
Proof.
  induction 1 as [|w l I F IH]; [reflexivity|]. destruct l as [|w' l]; [now apply commas_item|].
  rewrite join_snoc, commas_app, (commas_item w I). change (commas (","%char :: join [","%char] (w' :: l))) with (S (commas (join [","%char] (w' :: l)))). rewrite IH. reflexivity.
Qed.
(** Two ways of cutting a text at a comma. *)
Lemma cut_item a z b r : a ++ z = b ++ ","%char :: r -> item b -> (exists b', b = a ++ b' /\ z = b' ++ ","%char :: r) \/ (exists a', a = b ++ ","%char :: a' /\ r = a' ++ z).
Proof.
  revert b. induction a as [|x a IH]; intros b E I; [left; exists b; now split|]. destruct b as [|y b]; cbn [app] in E; injection E as -> E.
  - right. exists a. now split.
  - destruct (IH b E) as [(b' & -> & ->)|(a' & -> & ->)]; [intros K; apply I; now right|left; now exists b'|right; now exists a'].
Qed.
Lemma aligned_front : forall A B z, Forall item A -> Forall item B -> A <> [] -> length A <= length B -> join [","%char] B = join [","%char] A ++ z ->
  Forall2 (fun a b => exists u, b = a ++ u) A (firstn (length A) B).
Proof.
  induction A as [|a A IH]; intros B z FA FB Ne L E; [congruence|]. destruct B as [|b B]; [cbn in L; lia|]. inversion FA as [|? ? Ia FA']; subst. inversion FB as [|? ? Ib FB']; subst.
  cbn [length firstn] in *. destruct A as [|a1 A].
  - constructor; [|constructor]. change (join [","%char] [a]) with a in E. destruct B as [|b1 B]; [exists z; exact E|].
    rewrite join_snoc in E. symmetry in E. destruct (cut_item _ _ _ _ E Ib) as [(b' & -> & _)|(a' & -> & _)]; [eauto|]. destruct Ia. apply in_elt.
  - destruct B as [|b1 B]; [cbn in L; lia|]. rewrite !join_snoc, <- app_assoc in E. cbn [app] in E. symmetry in E. destruct (cut_item _ _ _ _ E Ib) as [(b' & -> & E')|(a' & -> & _)]; [|destruct Ia; apply in_elt].
    destruct b' as [|x b']; cbn [app] in E'; [injection E' as E'|injection E' as Ex E'; subst x; destruct Ib; apply in_elt].
    constructor; [exists []; now rewrite app_nil_r|]. apply (IH (b1 :: B) z); auto; [discriminate|cbn [length] in *; lia].
Qed.
Lemma aligned_same A B u z : Forall item A -> Forall item B -> A <> [] -> length A = length B -> join [","%char] B = u ++ join [","%char] A ++ z ->
  Forall2 (fun a b => exists u v, b = u ++ a ++ v) A B.
Proof.
  intros FA FB Ne L E. destruct B as [|b B]; [destruct A; [congruence|discriminate]|]. inversion FB as [|? ? Ib FB']; subst.
  assert (H : exists b', b = u ++ b' /\ join [","%char] (b' :: B) = join [","%char] A ++ z).
  { destruct B as [|b1 B].
    - change (join [","%char] [b]) with b in E. subst b. now exists (join [","%char] A ++ z).
    - rewrite join_snoc in E. symmetry in E. destruct (cut_item _ _ _ _ E Ib) as [(b' & -> & E')|(a' & -> & E')]; [exists b'; split; [reflexivity|]; rewrite join_snoc; now symmetry|exfalso].
      apply (f_equal commas) in E'. rewrite !commas_app, !commas_join in E' by assumption. cbn [length] in *. lia. }
  destruct H as (b' & -> & E'). assert (Ib' : item b') by (intros K; apply Ib, in_app_iff; now right).
  pose proof (aligned_front A (b' :: B) z FA) as Q. rewrite L in Q. cbn [length] in Q. rewrite firstn_all2 in Q by (cbn; lia). specialize (Q (Forall_cons _ Ib' FB') Ne (le_n _) E').
  inversion Q as [|a b2 A' B2 (v & ->) Q' Ea Eb]; subst. constructor; [now exists u, v|]. clear -Q'. induction Q' as [|a b A B (v & ->) Q IH]; constructor; auto. now exists [], v.
Qed.
Lemma csv_aligned A B : Forall item A -> Forall item B -> A <> [] -> S (length A) = length B ->
  contains (join [","%char] A) (join [","%char] B) = true ->
  Forall2 (fun a b => contains a b = true) A (tl B) \/ Forall2 (fun a b => contains a b = true) A (removelast B).
Proof.
  intros FA FB Ne L C. apply contains_iff in C as (u & z & E).
  assert (Cv : forall X Y : list str, Forall2 (fun a b => exists u v, b = u ++ a ++ v) X Y -> Forall2 (fun a b => contains a b = true) X Y).
  { clear. induction 1; constructor; auto. now apply contains_iff. }
  unfold str in *. destruct B as [|b B]; [discriminate|]. destruct B as [|b1 B]; [destruct A; [congruence|discriminate]|]. inversion FB as [|? ? Ib FB']; subst.
  rewrite join_snoc in E. symmetry in E. destruct (cut_item _ _ _ _ E Ib) as [(b' & -> & E')|(a' & -> & E')].
  - right. apply Cv. assert (Ib' : item b') by (intros K; apply Ib, in_app_iff; now right).
    pose proof (aligned_front A (b' :: b1 :: B) z FA (Forall_cons _ Ib' FB') Ne) as Q. rewrite join_snoc in Q.
    rewrite removelast_firstn_len. assert (LA : pred (length ((u ++ b') :: b1 :: B)) = length A) by (cbn [length pred] in L |- *; unfold str in *; lia). rewrite LA.
    assert (F : Forall2 (fun a b => exists u, b = a ++ u) A (firstn (length A) (b' :: b1 :: B))) by (apply Q; [cbn [length] in L |- *; unfold str in *; lia|now symmetry]). clear -F Ne.
    destruct A as [|a A]; [congruence|]. cbn [length firstn] in *. inversion F as [|? ? ? ? (v & ->) F']; subst. constructor; [now exists u, v|]. clear -F'.
    induction F' as [|x y X Y (v & ->) Q IH]; constructor; auto. now exists [], v.
  - left. cbn [tl]. apply Cv. apply (aligned_same A (b1 :: B) a' z FA FB' Ne); [cbn [length] in L |- *; unfold str in *; lia|exact E'].
Qed.
Lemma show_item z : item (show_Z z).
Proof.
  assert (D : forall n, item (show_N n)). { intros n K. pose proof (show_N_digits n) as H. rewrite forallb_forall in H. specialize (H _ K). discriminate H. }
  destruct z; cbn [show_Z]; [intros [K|[]]; discriminate K|apply D|]. intros [K|K]; [discriminate K|now apply (D _ K)].
Qed.

(** ** Placing *)
Definition placed (out : list ddict) : Prop := forall a d c, out = a ++ d :: c -> d_word d = Add ->
  (tl (d_ids d) <> [] -> exists a' d0 m, a = a' ++ d0 :: m /\ d_ids d0 = tl (d_ids d) /\
     Forall (fun e => d_word e = Add /\ exists q, q <> [] /\ d_ids e = q ++ tl (d_ids d)) m) /\
  (tl (d_ids d) = [] -> Forall (fun e => d_word e = Add) c).

Lemma place_at d l : (exists x, In x l /\ below x d = true) -> exists a t c, l = a ++ t :: c /\ place d l = a ++ t :: d :: c /\ below t d = true.
Proof.
  induction l as [|t l IH]; intros (x & Hx & B); [destruct Hx|]. cbn [place]. destruct (below t d) eqn:E.
  - now exists [], t, l.
  - destruct Hx as [->|Hx]; [congruence|]. destruct IH as (a & t' & c & -> & -> & B'); [eauto|]. now exists (t :: a), t', c.
Qed.
Lemma place_end d l : (forall x, In x l -> below x d = false) -> place d l = l ++ [d].
Proof. induction l as [|t l IH]; intros H; [reflexivity|]. cbn [place app]. rewrite (H t (or_introl eq_refl)), IH; [reflexivity|]. intros x Hx. apply H. now right. Qed.

Lemma two_splits {A} (a c a' c' : list A) x y : a ++ x :: c = a' ++ y :: c' ->
  (a = a' /\ x = y /\ c = c') \/ (exists m, a' = a ++ x :: m /\ c = m ++ y :: c') \/ (exists m, a = a' ++ y :: m /\ c' = m ++ x :: c).
Proof.
  revert a'. induction a as [|z a IH]; intros [|z' a'] E; cbn [app] in E; injection E as E1 E2.
  - now left.
  - right. left. exists a'. subst. now split.
  - right. right. exists a. subst. now split.
  - subst z'. destruct (IH a' E2) as [(-> & -> & ->)|[(m & -> & ->)|(m & -> & ->)]]; [now left|right; left; now exists m|right; right; now exists m].
Qed.

(** Inserting an added line directly after its parent. *)
Lemma placed_insert a t c d : placed (a ++ t :: c) -> d_word d = Add -> tl (d_ids d) <> [] -> d_ids t = tl (d_ids d) -> placed (a ++ t :: d :: c).
Proof.
  intros P W Ne Et a' e c' E We. assert (Nd : d_ids d <> []) by (intros K; rewrite K in Ne; now destruct Ne).
  assert (Hd : exists h, d_ids d = [h] ++ d_ids t) by (destruct (d_ids d) as [|h I]; [congruence|]; cbn [tl] in Et; exists h; now rewrite Et).
  destruct (two_splits _ _ _ _ _ _ E) as [(-> & -> & <-)|[(m & -> & Ec)|(m & -> & ->)]].
  - (* e = t *) destruct (P a' e c eq_refl We) as [P1 P2]. split; [exact P1|]. intros K. now constructor; [|apply P2].
  - destruct m as [|y m]; cbn [app] in Ec; injection Ec as -> Ec.
    + (* e = d *) subst c'. split; [|intros K; congruence]. intros _. exists a, t, []. split; [reflexivity|]. split; [exact Et|constructor].
    + (* e later *) subst c. destruct (P (a ++ t :: m) e c') as [P1 P2]; [now rewrite <- app_assoc|exact We|]. split; [|exact P2].
      intros K. destruct (P1 K) as (a1 & d0 & n & E1 & E0 & F). destruct (two_splits _ _ _ _ _ _ E1) as [(-> & -> & ->)|[(k & -> & ->)|(k & -> & ->)]].
      * exists a1, d0, (y :: n). split; [reflexivity|]. split; [exact E0|]. constructor; [|exact F]. split; [exact W|].
        destruct Hd as (h & Hd). exists [h]. split; [discriminate|]. now rewrite Hd, E0.
      * exists (a ++ t :: y :: k), d0, n. split; [now rewrite <- app_assoc|]. now split.
      * exists a1, d0, (k ++ t :: y :: m). split; [now rewrite <- app_assoc|]. split; [exact E0|]. apply Forall_app in F as [F1 F2]. inversion F2 as [|? ? [Wt (q & Nq & Hq)] F3]; subst.
        apply Forall_app. split; [exact F1|]. constructor; [split; [exact Wt|eauto]|]. constructor; [|exact F3]. split; [exact W|].
        destruct Hd as (h & Hd). exists (h :: q). split; [discriminate|]. now rewrite Hd, Hq.
  - (* e before t *) destruct (P a' e (m ++ t :: c)) as [P1 P2]; [now rewrite <- app_assoc|exact We|]. split; [exact P1|]. intros K. specialize (P2 K).
    apply Forall_app in P2 as [F1 F2]. apply Forall_app. split; [exact F1|]. inversion F2; subst. constructor; [assumption|]. now constructor.
Qed.
Lemma placed_root out d : placed out -> d_word d = Add -> tl (d_ids d) = [] -> placed (out ++ [d]).
Proof.
  intros P W E a e c Ea We. destruct c as [|z c] using rev_ind.
  - apply app_inj_tail in Ea as [-> ->]. split; [congruence|constructor].
  - rewrite app_comm_cons, app_assoc in Ea. apply app_inj_tail in Ea as [-> ->]. destruct (P a e c eq_refl We) as [P1 P2]. split; [exact P1|].
    intros K. apply Forall_app. split; [now apply P2|]. now constructor.
Qed.

Lemma compress_before : forall db da out keys, (forall d, In d db -> d_before d = true /\ (d_word d = Keep \/ d_word d = Remove)) ->
  exists keys', compress out keys (db ++ da) = compress (out ++ keptd keys db) keys' da /\
    forall k, In k keys' <-> In k keys \/ exists d, In d db /\ d_ids d = k.
Proof.
  induction db as [|d db IH]; intros da out keys H; cbn [app keptd].
  - exists keys. rewrite app_nil_r. split; [reflexivity|]. intros k. split; [now left|]. now intros [K|(d & [] & _)].
  - destruct (H d (or_introl eq_refl)) as [B W]. cbn [compress]. destruct (seen (d_ids d) keys) eqn:Sn.
    + destruct (IH da out keys) as (keys' & E & M); [intros e He; apply H; now right|]. exists keys'. split; [exact E|]. intros k. rewrite M. apply seen_in in Sn. split.
      * intros [K|(e & He & Ee)]; [now left|right; exists e; split; [now right|exact Ee]].
      * intros [K|(e & [<-|He] & Ee)]; [now left|left; congruence|right; eauto].
    + destruct (IH da (out ++ [d]) (d_ids d :: keys)) as (keys' & E & M); [intros e He; apply H; now right|].
      exists keys'. split; [rewrite B; destruct W as [-> | ->]; rewrite E, <- app_assoc; reflexivity|]. intros k. rewrite M. cbn [In]. split.
      * intros [[K|K]|(e & He & Ee)]; [right; exists d; split; [now left|exact K]|now left|right; exists e; split; [now right|exact Ee]].
      * intros [K|(e & [<-|He] & Ee)]; [left; now right|left; now left|right; eauto].
Qed.

Lemma compress_placed (all : list ddict) :
  (forall t d, In t all -> In d all -> d_word d = Add -> (below t d = true <-> tl (d_ids d) <> [] /\ d_ids t = tl (d_ids d))) ->
  forall todo out keys out', compress out keys todo = Ok out' ->
  (forall d, In d todo -> In d all) -> (forall d, In d out -> In d all) ->
  (forall k, In k keys <-> exists d, In d out /\ d_ids d = k) ->
  (forall d, In d todo -> d_word d <> Add -> In (d_ids d) keys) ->
  (forall pre d post, todo = pre ++ d :: post -> d_word d = Add -> tl (d_ids d) <> [] -> In (tl (d_ids d)) keys \/ exists e, In e pre /\ d_ids e = tl (d_ids d)) ->
  placed out -> placed out'.
Proof.
  intros Bel. induction todo as [|d todo IH]; intros out keys out' C T O K N Pa P; [cbn [compress] in C; injection C as <-; exact P|].
  assert (T' : forall e, In e todo -> In e all) by (intros e He; apply T; now right).
  assert (N' : forall e, In e todo -> d_word e <> Add -> In (d_ids e) keys) by (intros e He; apply N; now right).
  assert (Par : forall keys', (forall k, In k keys -> In k keys') -> In (d_ids d) keys' -> forall pre e post, todo = pre ++ e :: post -> d_word e = Add -> tl (d_ids e) <> [] ->
    In (tl (d_ids e)) keys' \/ exists x, In x pre /\ d_ids x = tl (d_ids e)).
  { intros keys' Sub Id pre e post -> We Ne. destruct (Pa (d :: pre) e post eq_refl We Ne) as [Q|(x & [<-|Hx] & Ex)]; [left; auto|left; now rewrite <- Ex|right; eauto]. }
  cbn [compress] in C. destruct (seen (d_ids d) keys) eqn:Sn.
  - apply seen_in in Sn. apply (IH out keys out' C T' O K N' (Par keys (fun k H => H) Sn) P).
  - assert (W : d_word d = Add).
    { destruct (d_word d) eqn:W; try reflexivity; exfalso; assert (In (d_ids d) keys) by (apply N; [now left|rewrite W; discriminate]); apply seen_in in H; congruence. }
    assert (Hd : In d all) by (apply T; now left). rewrite W in C. destruct (d_before d); [discriminate|].
    apply (IH (place d out) (d_ids d :: keys) out' C T').
    + intros e He. apply (Permutation_in _ (place_perm d out)), in_app_iff in He as [He|[<-|[]]]; auto.
    + intros k. cbn [In]. rewrite K. split.
      * intros [<-|(e & He & Ee)]; [exists d|exists e]; (split; [apply (Permutation_in _ (Permutation_sym (place_perm d out))), in_app_iff|]); auto; [right; now left].
      * intros (e & He & Ee). apply (Permutation_in _ (place_perm d out)), in_app_iff in He as [He|[<-|[]]]; [right; eauto|now left].
    + intros e He We. right. now apply N'.
    + apply Par; [now right|now left].
    + destruct (list_eq_dec Z.eq_dec (tl (d_ids d)) []) as [Q|Q].
      * rewrite place_end; [now apply placed_root|]. intros x Hx. apply not_true_is_false. intros B. apply (Bel x d (O x Hx) Hd W) in B as [B _]. congruence.
      * destruct (Pa [] d todo eq_refl W Q) as [I|(x & [] & _)]. apply K in I as (x & Hx & Ex).
        destruct (place_at d out) as (a & t & c & -> & -> & B); [exists x; split; [exact Hx|apply Bel; auto]|].
        apply Bel in B as [_ B]; auto; [|apply O, in_elt]. now apply placed_insert.
Qed.

Lemma contains_refl s : contains s s = true.
Proof. apply contains_iff. exists [], []. now rewrite app_nil_r. Qed.
Lemma no_overlap_collision hash ts : no_overlap hash ts -> no_collision hash ts.
Proof. intros H s t Hs Ht E. apply H; auto. rewrite E. apply contains_refl. Qed.
Lemma Forall2_contains hash T p q : no_overlap hash T -> (forall t, In t p -> In t T) -> (forall t, In t q -> In t T) ->
  Forall2 (fun a b => contains a b = true) (map show_Z (map hash p)) (map show_Z (map hash q)) -> p = q.
Proof.
  intros N. revert q. induction p as [|s p IH]; intros [|t q] Hp Hq F; cbn [map] in F; inversion F; subst; [reflexivity|]. f_equal.
  - apply N; [apply Hp; now left|apply Hq; now left|assumption].
  - apply IH; auto; intros x Hx; [apply Hp|apply Hq]; now right.
Qed.
Lemma csv_path d (hash : str -> Z) p : d_ids d = rev (map hash p) -> csv d = join [","%char] (map show_Z (map hash (rev p))).
Proof. intros E. unfold csv. rewrite E, !map_rev. reflexivity. Qed.
Lemma rev_tl {A} (l : list A) : rev (tl l) = removelast (rev l).
Proof. destruct l as [|x l]; [reflexivity|]. cbn [tl rev]. now rewrite removelast_last. Qed.
Lemma tl_rev {A} (l : list A) : tl (rev l) = rev (removelast l).
Proof. destruct l as [|x l] using rev_ind; [reflexivity|]. now rewrite rev_unit, removelast_last. Qed.
Lemma map_tl {A B} (f : A -> B) l : map f (tl l) = tl (map f l).
Proof. now destruct l. Qed.
Lemma map_removelast {A B} (f : A -> B) l : map f (removelast l) = removelast (map f l).
Proof. induction l as [|x l IH]; [reflexivity|]. destruct l as [|y l]; [reflexivity|]. change (removelast (x :: y :: l)) with (x :: removelast (y :: l)). cbn [map] in *. rewrite IH. reflexivity. Qed.

Lemma below_iff hash T t d p q : no_overlap hash T -> (forall x, In x p -> In x T) -> (forall x, In x q -> In x T) ->
  d_ids t = rev (map hash p) -> d_ids d = rev (map hash q) -> p <> [] -> p <> tl q ->
  (below t d = true <-> tl (d_ids d) <> [] /\ d_ids t = tl (d_ids d)).
Proof.
  intros N Hp Hq Et Ed Np Nt. unfold below. rewrite andb_true_iff, Nat.eqb_eq, (csv_path t hash p Et), (csv_path d hash q Ed). split.
  - intros [C L]. rewrite Et, Ed, !rev_length, !map_length in L.
    assert (It : forall l : list Z, Forall item (map show_Z l)) by (intros l; apply Forall_forall; intros x Hx; apply in_map_iff in Hx as (z & <- & _); apply show_item).
    destruct (csv_aligned (map show_Z (map hash (rev p))) (map show_Z (map hash (rev q)))) as [F|F]; auto.
    + intros K. apply map_eq_nil, map_eq_nil in K. apply Np. rewrite <- (rev_involutive p), K. reflexivity.
    + now rewrite !map_length, !rev_length.
    + rewrite <- !map_tl in F. rewrite tl_rev in F. apply (Forall2_contains hash T) in F; auto.
      * assert (p = removelast q) by (rewrite <- (rev_involutive p), F; apply rev_involutive). rewrite Et, Ed, tl_rev, <- map_removelast, <- H. split; [|reflexivity].
        intros K. apply Np. destruct p; [reflexivity|]. cbn [map rev] in K. now destruct (app_cons_not_nil _ _ _ (eq_sym K)).
      * intros x Hx. apply Hp. now apply in_rev.
      * intros x Hx. apply in_rev in Hx. apply Hq. destruct q as [|y q] using rev_ind; [destruct Hx|]. rewrite removelast_last in Hx. apply in_app_iff. now left.
    + rewrite <- !map_removelast in F. rewrite <- rev_tl in F. apply (Forall2_contains hash T) in F; auto.
      * destruct Nt. now rewrite <- (rev_involutive p), F, rev_involutive.
      * intros x Hx. apply Hp. now apply in_rev.
      * intros x Hx. apply in_rev in Hx. apply Hq. destruct q; [destruct Hx|now right].
  - intros [Ne E]. assert (p = removelast q).
    { rewrite Et, Ed, tl_rev, <- map_removelast in E. apply (rev_hash_inj hash T); auto; [now apply no_overlap_collision|].
      intros x Hx. apply Hq. destruct q as [|y q _] using rev_ind; [destruct Hx|]. rewrite removelast_last in Hx. apply in_app_iff. now left. }
    destruct q as [|y q _] using rev_ind; [subst p; now destruct Np|]. rewrite removelast_last in H. subst q. split.
    + apply contains_iff. rewrite rev_unit. cbn [map]. destruct (map show_Z (map hash (rev p))) as [|a l] eqn:Ea.
      * exfalso. apply map_eq_nil, map_eq_nil in Ea. apply Np. now rewrite <- (rev_involutive p), Ea.
      * exists (show_Z (hash y) ++ [","%char]), []. rewrite join_snoc, app_nil_r, <- app_assoc. reflexivity.
    + rewrite Et, Ed, !rev_length, !map_length, app_length. cbn [length]. lia.
Qed.

Section Placement.
  Variables (hash : str -> Z) (wb wa : world) (bb ba : nat) (lb la : list str).
  Hypotheses (Lb : loaded wb bb lb) (La : loaded wa ba la).
  Hypotheses (Db : Forall (fun l => no_digit_start l = true) lb) (Da : Forall (fun l => no_digit_start l = true) la).
  Hypothesis NO : no_overlap hash (map squeezed (lb ++ la)).
  Hypothesis NT : forall q, reported wb wa Plus q -> ~ has_line wb (tl q) /\ ~ has_line wa (tl q).
  Notation vb := (normal_texts wb).
  Notation va := (normal_texts wa).

  Lemma placed_out out : diff_dicts hash vb va = Ok out -> placed out.
  Proof.
    pose proof (no_overlap_collision _ _ NO) as NC.
    destruct (diff_core hash wb wa bb ba lb la Lb La) as (fb & fa & db & da & out' & E & I & M1 & M2 & M3 & Fb & Fa & _ & _ & C).
    rewrite E. intros [= <-]. pose proof (v_conf wb bb lb Lb) as Cb. pose proof (v_conf wa ba la La) as Ca. rewrite Cb in Fb. rewrite Ca in Fa.
    assert (UncB : forall y, In y (w_conf wa) -> fa y = Unchanged -> has_line wb (path wa y)).
    { intros y Hy K. rewrite <- Ca in Hy. destruct (M3 y Hy K) as (a & Ha & (c & Hc & Ec) & Iy). rewrite Ca in *. rewrite Cb in Hc.
      destruct (path_up wa ba la La Da a y Ha Iy) as (q & Q). rewrite <- (same_ids hash wb wa bb ba lb la Lb La Db Da NC c a Hc Ha Ec) in Q.
      destruct (path_down wb bb lb Lb Db c _ _ Hc Q) as (x & Hx & Ex); [now apply (path_ne wa ba la)|]. apply (has_line_iff wb bb lb Lb Db). eauto. }
    assert (AddA : forall y, In y (w_conf wa) -> fa y = Add -> reported wb wa Plus (path wa y)).
    { intros y Hy K. split; [apply (has_line_iff wa ba la La Da); eauto|]. intros HB. apply (has_line_iff wb bb lb Lb Db) in HB as (x & Hx & Ex).
      destruct (M2 y) as [U _]; [now rewrite Ca|exists x; split; [now rewrite Cb|]|congruence]. now rewrite (path_ids hash wb bb lb Lb Db x Hx), (path_ids hash wa ba la La Da y Hy), Ex. }
    assert (Eb : forall d, In d db -> exists x, In x (w_conf wb) /\ d_before d = true /\ (d_word d = Keep \/ d_word d = Remove) /\ d_ids d = rev (map hash (path wb x))).
    { intros d Hd. destruct (Forall2_in_r _ _ _ d Fb Hd) as (x & Hx & Rx). exists x. destruct (entry_b hash wb bb lb la Lb Db d x _ Hx Rx) as (W & A1 & _).
      split; [exact Hx|]. split; [|split; [rewrite W; apply I|exact A1]]. rewrite <- Cb in Hx. now destruct (dict_fields _ _ _ _ _ _ _ Rx _ (ids_b hash wb bb lb Lb x Hx)). }
    assert (Ea : forall d, In d da -> exists y, In y (w_conf wa) /\ d_word d = fa y /\ d_ids d = rev (map hash (path wa y))).
    { intros d Hd. destruct (Forall2_in_r _ _ _ d Fa Hd) as (y & Hy & Ry). apply filter_In in Hy as [Hy _]. exists y.
      destruct (entry_a hash wa ba lb la La Da d y _ _ Hy Ry) as (W & A1 & _). now repeat split. }
    assert (InDb : forall p, has_line wb p -> exists d, In d db /\ d_ids d = rev (map hash p)).
    { intros p Hp. apply (has_line_iff wb bb lb Lb Db) in Hp as (x & Hx & <-). destruct (Forall2_in_l _ _ _ x Fb Hx) as (d & Hd & Rx). exists d. split; [exact Hd|].
      now destruct (entry_b hash wb bb lb la Lb Db d x _ Hx Rx) as (_ & A1 & _). }
    destruct (compress_before db da [] []) as (keys & E1 & K1).
    { intros d Hd. destruct (Eb d Hd) as (x & _ & B & W & _). now split. }
    rewrite E1 in C. cbn [app] in C.
    assert (K2 : forall k, In k keys <-> exists d, In d (keptd [] db) /\ d_ids d = k).
    { intros k. rewrite K1. split.
      - intros [[]|H]. apply keptd_exists; [intros []|exact H].
      - intros (d & Hd & Ed). right. apply keptd_in in Hd as (pre & post & -> & _). exists d. split; [apply in_elt|exact Ed]. }
    assert (Sub : forall d, In d (keptd [] db) -> In d db) by (intros d Hd; apply keptd_in in Hd as (pre & post & -> & _); apply in_elt).
    assert (InK : forall p, has_line wb p -> In (rev (map hash p)) keys) by (intros p Hp; apply K1; right; auto).
    refine (compress_placed (db ++ da) _ da (keptd [] db) keys out' C _ _ K2 _ _ _).
    - assert (Pth : forall d, In d (db ++ da) -> exists p, d_ids d = rev (map hash p) /\ p <> [] /\ (has_line wb p \/ has_line wa p) /\ (forall t, In t p -> In t (map squeezed (lb ++ la))) /\ (d_word d = Add -> reported wb wa Plus p)).
      { intros d Hd. apply in_app_iff in Hd as [Hd|Hd].
        - destruct (Eb d Hd) as (x & Hx & _ & W & A1). exists (path wb x). split; [exact A1|]. split; [now apply (path_ne wb bb lb)|]. split; [left; apply (has_line_iff wb bb lb Lb Db); eauto|].
          split; [intros t; now apply (texts_b wb bb lb la Lb)|]. intros K. destruct W; congruence.
        - destruct (Ea d Hd) as (y & Hy & W & A1). exists (path wa y). split; [exact A1|]. split; [now apply (path_ne wa ba la)|]. split; [right; apply (has_line_iff wa ba la La Da); eauto|].
          split; [intros t; now apply (texts_a wa ba lb la La)|]. intros K. apply AddA; [exact Hy|congruence]. }
      intros t d Ht Hd W. destruct (Pth t Ht) as (p & P1 & P2 & P3 & P4 & _). destruct (Pth d Hd) as (q & Q1 & Q2 & _ & Q4 & Q5).
      apply (below_iff hash _ t d p q NO P4 Q4 P1 Q1 P2). intros ->. destruct (NT q (Q5 W)). tauto.
    - intros d Hd. apply in_app_iff. now right.
    - intros d Hd. apply in_app_iff. left. auto.
    - intros d Hd W. destruct (Ea d Hd) as (y & Hy & Wy & ->). apply InK, UncB; [exact Hy|]. destruct (M1 y) as [K|K]; [now rewrite Ca|exact K|congruence].
    - intros pre d post Ep W Ne. rewrite Ep in Fa. destruct (Forall2_split_r _ _ _ _ _ Fa) as (l1 & y & l2 & El & F1 & Ry & _).
      assert (Hy : In y (filter (rendered va fa) (w_conf wa))) by (rewrite El; apply in_elt). apply filter_In in Hy as [Hy _].
      destruct (entry_a hash wa ba lb la La Da d y _ _ Hy Ry) as (Wy & A1 & _).
      assert (Er : tl (d_ids d) = rev (map hash (removelast (path wa y)))) by (rewrite A1, tl_rev, map_removelast; reflexivity). rewrite Er in *.
      destruct (path_down_gen wa ba la La Da y (removelast (path wa y)) [last (path wa y) []] Hy) as (z & Hg & Hz & Ez).
      { apply app_removelast_last. now apply (path_ne wa ba la). }
      { intros K. rewrite K in Ne. now apply Ne. }
      rewrite <- Ez. destruct (M1 z) as [Kz|Kz]; [now rewrite Ca|left; now apply InK, UncB|right].
      assert (Lt : z < y).
      { rewrite <- Ca in Hy. destruct (gen_a wa ba la La y Hy) as (_ & _ & G). destruct (G z Hg) as [_ Le]. destruct (Nat.eq_dec z y) as [->|]; [exfalso|lia].
        rewrite Ca in Hy. pose proof (path_last wa ba la La Da y Hy) as Q. rewrite <- Ez in Q. apply (f_equal (@length str)) in Q. rewrite app_length in Q. cbn [length] in Q. lia. }
      assert (Hf : In z (filter (rendered va fa) (w_conf wa))) by (apply filter_In; split; [exact Hz|unfold rendered; now rewrite Kz]).
      assert (Hl : In z l1).
      { assert (Sf : StronglySorted lt (filter (rendered va fa) (w_conf wa))).
        { pose proof (conf_sorted wa ba la La) as Sc. revert Sc. generalize (w_conf wa). clear. induction 1 as [|x l S IH F]; cbn [filter]; [constructor|]. destruct (rendered va fa x); [|exact IH].
          constructor; [exact IH|]. rewrite Forall_forall in *. intros z Hz. apply filter_In in Hz as [Hz _]. auto. }
        rewrite El in Hf, Sf. apply in_app_iff in Hf as [Hf|[<-|Hf]]; [exact Hf|lia|]. exfalso. clear -Sf Hf Lt. induction l1 as [|x l1 IH]; cbn [app] in Sf; inversion Sf as [|? ? S F]; subst.
        - rewrite Forall_forall in F. specialize (F z Hf). lia.
        - now apply IH. }
      destruct (Forall2_in_l _ _ _ z F1 Hl) as (e & He & Re). exists e. split; [exact He|]. now destruct (entry_a hash wa ba lb la La Da e z _ _ Hz Re) as (_ & A & _).
    - intros a d c Eo W. exfalso. assert (Hd : In d db) by (apply Sub; rewrite Eo; apply in_elt). destruct (Eb d Hd) as (x & _ & _ & [K|K] & _); congruence.
  Qed.
End Placement.

Lemma app_inj_len {A} (a b c d : list A) : length a = length b -> a ++ c = b ++ d -> a = b /\ c = d.
Proof.
  revert b. induction a as [|x a IH]; intros [|y b] L E; try discriminate; [now split|]. cbn [app] in E. injection E as -> E. destruct (IH b) as [-> ->]; auto.
Qed.
Lemma combine_split {A B} (a : list A) (c : list B) : forall l x y r, length a = length c -> combine a c = l ++ (x, y) :: r ->
  exists a1 a2 c1 c2, a = a1 ++ x :: a2 /\ c = c1 ++ y :: c2 /\ l = combine a1 c1 /\ r = combine a2 c2 /\ length a1 = length c1 /\ length a2 = length c2.
Proof.
  revert c. induction a as [|u a IH]; intros [|v c] l x y r L E; try discriminate; [now destruct l|]. cbn [combine] in E. destruct l as [|e l]; cbn [app] in E.
  - injection E as -> -> <-. exists [], a, [], c. cbn [length] in *. repeat split; lia.
  - injection E as <- E. destruct (IH c l x y r) as (a1 & a2 & c1 & c2 & -> & -> & -> & -> & L1 & L2); [now injection L|exact E|].
    exists (u :: a1), a2, (v :: c1), c2. cbn [length]. repeat split; lia.
Qed.
Lemma combine_app {A B} (a1 a2 : list A) (c1 c2 : list B) : length a1 = length c1 -> combine (a1 ++ a2) (c1 ++ c2) = combine a1 c1 ++ combine a2 c2.
Proof. revert c1. induction a1 as [|x a1 IH]; intros [|y c1] L; try discriminate; [reflexivity|]. cbn [app combine]. rewrite IH; [reflexivity|]. now injection L. Qed.
Lemma Forall2_len {A B} (R : A -> B -> Prop) xs ys : Forall2 R xs ys -> length xs = length ys.
Proof. induction 1; cbn [length]; congruence. Qed.
Lemma Forall2_split_l {A B} (R : A -> B -> Prop) pre x post ys : Forall2 R (pre ++ x :: post) ys ->
  exists ypre y ypost, ys = ypre ++ y :: ypost /\ Forall2 R pre ypre /\ R x y /\ Forall2 R post ypost.
Proof.
  revert ys. induction pre as [|p pre IH]; intros ys F; inversion F as [|? y ? ys' Hx F']; subst.
  - exists [], y, ys'. now repeat split.
  - destruct (IH ys' F') as (ypre & z & ypost & -> & F1 & F2 & F3). exists (y :: ypre), z, ypost. repeat split; auto.
Qed.

(** An added line is shown below the line it belongs to: between them are only added
    lines below that line.  An added line that belongs to no other is shown after
    every line that is not added. *)
Theorem C54_placed : forall hash sy ignore_blank before after wb wa,
  let o := mkOpts (lit "!") ignore_blank sy in
  sy = Ios \/ sy = Nxos -> parse o before = Ok wb -> parse o after = Ok wa ->
  Forall (fun l => no_digit_start l = true) (before ++ after) ->
  no_overlap hash (map squeezed (before ++ after)) ->
  (forall q, reported wb wa Plus q -> ~ has_line wb (tl q) /\ ~ has_line wa (tl q)) ->
  exists ds es, hdiff hash sy ignore_blank before after = Ok ds /\ unified ds = map shown es /\
    map d_parents ds = map (fun e => removelast (snd e)) es /\
    (forall s p, In (s, p) es -> reported wb wa s p) /\
    forall a p t c, es = a ++ (Plus, p ++ [t]) :: c ->
      (p <> [] -> exists a' s m, a = a' ++ (s, p) :: m /\
        Forall (fun e => fst e = Plus /\ exists q, q <> [] /\ snd e = p ++ q) m) /\
      (p = [] -> Forall (fun e => fst e = Plus) c).
Proof.
  intros hash sy ib before after wb wa o Sy Pb Pa Nd NO NT. apply Forall_app in Nd as [Nb Na].
  destruct (parse_loaded _ _ _ Pb) as [Lb _]. destruct (parse_loaded _ _ _ Pa) as [La _].
  pose proof (Forall_input o _ _ Nb) as Nb'. pose proof (Forall_input o _ _ Na) as Na'.
  assert (NO' : no_overlap hash (map squeezed (input_lines o before ++ input_lines o after))).
  { assert (Sub : forall s, In s (map squeezed (input_lines o before ++ input_lines o after)) -> In s (map squeezed (before ++ after))).
    { intros s Hs. apply in_map_iff in Hs as (l & <- & Hl). apply in_map. apply in_app_iff in Hl as [Hl|Hl]; apply in_input in Hl; apply in_app_iff; auto. }
    intros s t Hs Ht. apply NO; auto. }
  pose proof (no_overlap_collision _ _ NO') as NC'.
  destruct (report_core hash wb wa 0 0 _ _ Lb La Nb' Na' NC') as (out & ps & E & F & _).
  pose proof (placed_out hash wb wa 0 0 _ _ Lb La Nb' Na' NO' NT out E) as P.
  exists out, (combine (map sign_of out) ps).
  split; [unfold hdiff; fold o; destruct Sy as [-> | ->]; rewrite Pb; cbn [bind]; rewrite Pa; exact E|].
  split; [|split; [|split]].
  - clear -F. unfold unified. induction F as [|d p out ps (_ & _ & T & _) F IH]; [reflexivity|]. cbn [map combine]. rewrite IH, T. f_equal.
    unfold shown, sign_char, sign_of. cbn [fst snd]. now destruct (d_word d).
  - clear -F. induction F as [|d p out ps (_ & _ & _ & T & _) F IH]; [reflexivity|]. cbn [map combine snd]. now rewrite IH, T.
  - intros s p H. clear -F H. induction F as [|d q out ps (_ & _ & _ & _ & T) F IH]; [destruct H|]. cbn [map combine] in H. destruct H as [H|H]; [injection H as <- <-; exact T|now apply IH].
  - intros a p t c Es.
    assert (Len : length (map sign_of out) = length ps) by (rewrite map_length; now apply (Forall2_len _ _ _ F)).
    destruct (combine_split _ _ _ _ _ _ Len Es) as (s1 & s2 & p1 & p2 & Es1 & Ep & -> & -> & L1 & L2).
    rewrite Ep in F. destruct (Forall2_split_r _ _ _ _ _ F) as (o1 & d & o2 & Eo & F1 & (I1 & I2 & _) & F2).
    rewrite Eo, map_app in Es1. cbn [map] in Es1. apply app_inj_len in Es1 as [Es1 Es2]; [|rewrite map_length, L1; apply (Forall2_len _ _ _ F1)].
    injection Es2 as Ed Es2. subst s1 s2. assert (W : d_word d = Add) by (unfold sign_of in Ed; destruct (d_word d); congruence).
    destruct (P o1 d o2 Eo W) as [P1 P2]. assert (Et : tl (d_ids d) = rev (map hash p)) by (rewrite I1, tl_rev, <- map_removelast, removelast_last; reflexivity). rewrite Et in P1, P2.
    assert (Tx : forall x, In x p -> In x (map squeezed (input_lines o before ++ input_lines o after))) by (intros x Hx; apply I2, in_app_iff; now left).
    assert (Pl : forall e, d_word e = Add -> sign_of e = Plus) by (intros e K; unfold sign_of; now rewrite K).
    split.
    + intros Np. destruct P1 as (a' & d0 & m & -> & Id & Fm).
      { intros K. apply Np. destruct p; [reflexivity|]. cbn [map rev] in K. now destruct (app_cons_not_nil _ _ _ (eq_sym K)). }
      destruct (Forall2_split_l _ _ _ _ _ F1) as (y1 & p0 & y2 & -> & G1 & (J1 & J2 & _) & G2).
      assert (p0 = p) as -> by (apply (rev_hash_inj hash _ _ _ NC' J2 Tx); congruence).
      exists (combine (map sign_of a') y1), (sign_of d0), (combine (map sign_of m) y2). split.
      * rewrite map_app. cbn [map]. rewrite combine_app; [reflexivity|]. rewrite map_length. apply (Forall2_len _ _ _ G1).
      * clear -Fm G2 Pl NC' Tx. induction G2 as [|e q m y2 (K1 & K2 & _) G IH]; [constructor|]. inversion Fm as [|? ? [We (r & Nr & Hr)] Fm']; subst. cbn [map combine].
        constructor; [|now apply IH]. split; [now apply Pl|]. cbn [snd].
        assert (Hq : skipn (length r) (rev (map hash q)) = rev (map hash p)) by (rewrite <- K1, Hr, skipn_app, Nat.sub_diag, skipn_all; reflexivity).
        assert (Eq : map hash (firstn (length q - length r) q) = map hash p).
        { rewrite <- (rev_involutive (map hash p)), <- Hq, skipn_rev, rev_involutive, map_length. symmetry. apply firstn_map. }
        assert (Lr : length r <= length q). { apply (f_equal (@length Z)) in Hr. rewrite K1, rev_length, map_length, app_length in Hr. lia. }
        exists (skipn (length q - length r) q). split.
        -- intros K. apply (f_equal (@length str)) in K. rewrite skipn_length in K. cbn [length] in K. destruct r; [congruence|]. cbn [length] in *. lia.
        -- replace p with (firstn (length q - length r) q); [now rewrite firstn_skipn|].
           apply (rev_hash_inj hash _ _ _ NC'); [|exact Tx|now rewrite Eq]. intros x Hx. apply K2. rewrite <- (firstn_skipn (length q - length r) q). apply in_app_iff. now left.
    + intros ->. specialize (P2 eq_refl). clear -P2 F2 Pl. induction F2 as [|e q o2 p2 _ F IH]; [constructor|]. inversion P2; subst. cbn [map combine]. constructor; [now apply Pl|now apply IH].
Qed.
Print Assumptions C54_placed.

(** ** A case *)
Lemma no_overlap_b hash ts : forallb (fun s => forallb (fun t => implb (contains (show_Z (hash s)) (show_Z (hash t))) (str_eqb s t)) ts) ts = true -> no_overlap hash ts.
Proof.
  intros H s t Hs Ht E. rewrite forallb_forall in H. specialize (H s Hs). rewrite forallb_forall in H. specialize (H t Ht). rewrite E in H. now apply str_eqb_eq.
Qed.
Definition clear_of (wb wa : world) : bool := forallb (fun y => forallb (fun p => if path_eq_dec p (tl (path wa y)) then false else true) (map (path wb) (w_conf wb) ++ map (path wa) (w_conf wa))) (w_conf wa).
Lemma clear_of_ok o lb la wb wa : parse o lb = Ok wb -> parse o la = Ok wa -> Forall (fun l => no_digit_start l = true) (lb ++ la) ->
  clear_of wb wa = true -> forall q, reported wb wa Plus q -> ~ has_line wb (tl q) /\ ~ has_line wa (tl q).
Proof.
  intros Pb Pa Nd C q [Hq _]. apply Forall_app in Nd as [Nb Na]. destruct (parse_loaded _ _ _ Pb) as [Lb _]. destruct (parse_loaded _ _ _ Pa) as [La _].
  pose proof (Forall_input o _ _ Nb) as Nb'. pose proof (Forall_input o _ _ Na) as Na'.
  apply (has_line_iff wa _ _ La Na') in Hq as (y & Hy & <-). unfold clear_of in C. rewrite forallb_forall in C. specialize (C y Hy). rewrite forallb_forall in C.
  split; intros H; [apply (has_line_iff wb _ _ Lb Nb') in H as (x & Hx & Ex)|apply (has_line_iff wa _ _ La Na') in H as (x & Hx & Ex)].
  - assert (K := C (path wb x)). rewrite Ex in K. destruct (path_eq_dec _ _); [|congruence]. discriminate K. rewrite <- Ex. apply in_app_iff. left. now apply in_map.
  - assert (K := C (path wa x)). rewrite Ex in K. destruct (path_eq_dec _ _); [|congruence]. discriminate K. rewrite <- Ex. apply in_app_iff. right. now apply in_map.
Qed.
Definition has_b (w : world) (p : list str) : bool := existsb (fun x => if path_eq_dec (path w x) p then true else false) (w_conf w).
Lemma has_b_ok o lines w p : parse o lines = Ok w -> Forall (fun l => no_digit_start l = true) lines -> (has_b w p = true <-> has_line w p).
Proof.
  intros P N. destruct (parse_loaded _ _ _ P) as [L _]. pose proof (Forall_input o _ _ N) as N'. rewrite (has_line_iff w _ _ L N'). unfold has_b. rewrite existsb_exists. split.
  - intros (x & Hx & K). destruct (path_eq_dec (path w x) p) as [E|]; [eauto|discriminate].
  - intros (x & Hx & E). exists x. split; [exact Hx|]. destruct (path_eq_dec (path w x) p) as [_|K]; [reflexivity|now destruct K].
Qed.
Lemma both_ok (P : world -> world -> bool) b a wb wa : b = Ok wb -> a = Ok wa -> match b, a with Ok b, Ok a => P b a | _, _ => false end = true -> P wb wa = true.
Proof. now intros -> ->. Qed.
Example C54_case : exists wb wa, parse (mkOpts (lit "!") true Ios) day1 = Ok wb /\ parse (mkOpts (lit "!") true Ios) day2 = Ok wa /\
  no_overlap toy_hash (map squeezed (day1 ++ day2)) /\ (forall q, reported wb wa Plus q -> ~ has_line wb (tl q) /\ ~ has_line wa (tl q)) /\
  reported wb wa Plus (map lit ["interface Gi0/1"; " mtu 1400"]%string).
Proof.
  destruct C24_case as (Nd & NC & (wb & wa & Pb & Pa) & _). exists wb, wa. split; [exact Pb|]. split; [exact Pa|].
  split; [apply no_overlap_b; vm_compute; reflexivity|]. split.
  - apply (clear_of_ok _ _ _ _ _ Pb Pa Nd). apply (both_ok clear_of _ _ _ _ Pb Pa). vm_compute. reflexivity.
  - apply Forall_app in Nd as [Nb Na]. split.
    + apply (has_b_ok _ _ _ _ Pa Na). apply (both_ok (fun _ a => has_b a (map lit ["interface Gi0/1"; " mtu 1400"]%string)) _ _ _ _ Pb Pa). vm_compute. reflexivity.
    + intros H. apply (has_b_ok _ _ _ _ Pb Nb) in H.
      assert (K : negb (has_b wb (map lit ["interface Gi0/1"; " mtu 1400"]%string)) = true).
      { apply (both_ok (fun b _ => negb (has_b b (map lit ["interface Gi0/1"; " mtu 1400"]%string))) _ _ _ _ Pb Pa). vm_compute. reflexivity. }
      rewrite H in K. discriminate K.
Qed.
(** Where a line is the tail of an added line's ancestry, the added line can be shown
    below it instead: the check for the parent is a substring test. *)
Example C54_tail_finding : match hdiff toy_hash Ios false (map lit [" b"; "a"]%string) (map lit [" b"; "a"; " b"]%string) with
  | Ok ds => unified ds = map lit ["  b"; "+ b"; " a"]%string
  | Err _ => False
  end.
Proof. vm_compute. reflexivity. Qed.
