(** C72: the list operations of a configuration. *)
From Coq Require Import Ascii String Arith NArith ZArith Bool List Lia Sorting.Sorted Sorting.Permutation.
From Verif Require Import PyStr PyStrFacts PyBase PyBaseFacts CfgModel MutModel MutSpec MutProofs TreeSpec BraceSpec WorldSpec PTree ListModel ListSpec.
Import ListNotations.
Local Open Scope nat_scope.

(** ** Comparison *)

Lemma cell_eqb_iff a b : cell_eqb a b = true <-> show_Z (fst a) ++ snd a = show_Z (fst b) ++ snd b.
Proof. apply str_eqb_eq. Qed.
Lemma list_eqb_iff a : forall b, list_eqb a b = true <-> Forall2 (fun x y => cell_eqb x y = true) a b.
Proof.
  induction a as [|x a IH]; intros [|y b]; cbn [list_eqb]; try (split; [discriminate|intros K; inversion K]); [split; auto|].
  rewrite andb_true_iff, IH. split; [intros [? ?]; now constructor|intros K; now inversion K].
Qed.
(** Lists of cells with equal numbers at equal positions *)
Definition aligned (k : nat) (a : list cell) : Prop := forall i c, nth_error a i = Some c -> fst c = Z.of_nat (k + i).
Lemma aligned_cons k c a : aligned k (c :: a) -> fst c = Z.of_nat k /\ aligned (S k) a.
Proof. intros K. split; [pose proof (K 0 c eq_refl); now rewrite Nat.add_0_r in *|]. intros i d E. rewrite (K (S i) d E). f_equal. lia. Qed.
Lemma numbered_aligned w : numbered w -> aligned 0 (cells w).
Proof.
  intros HN i c E. unfold cells in E. rewrite nth_error_map in E. destruct (nth_error (w_conf w) i) as [x|] eqn:Ex; [|discriminate]. injection E as <-.
  destruct (HN i x Ex) as (l & El & En). cbn [fst]. unfold linenum_of. now rewrite El.
Qed.
Lemma texts_cells w : map snd (cells w) = ioscfg w. Proof. unfold cells, ioscfg. now rewrite map_map. Qed.
Lemma aligned_eqb x y : fst x = fst y -> (cell_eqb x y = true <-> snd x = snd y).
Proof. intros E. rewrite cell_eqb_iff, E. split; [apply app_inv_head|congruence]. Qed.
Lemma aligned_eq k a : forall b, aligned k a -> aligned k b -> (list_eqb a b = true <-> map snd a = map snd b).
Proof.
  revert k. induction a as [|x a IH]; intros k [|y b] Ka Kb; cbn [list_eqb map]; try (split; congruence).
  apply aligned_cons in Ka as [Ea Ka], Kb as [Eb Kb]. rewrite andb_true_iff, (IH (S k) b Ka Kb), aligned_eqb by congruence. split; [intros [-> ->]; reflexivity|intros [= -> ->]; auto].
Qed.
(** Two configurations with their lines in order are equal when they have the same text. *)
Theorem C72_equal : forall v w, numbered v -> numbered w -> (cfg_eq v w = true <-> ioscfg v = ioscfg w).
Proof. intros v w Hv Hw. unfold cfg_eq. rewrite <- !texts_cells. apply (aligned_eq 0); now apply numbered_aligned. Qed.
Print Assumptions C72_equal.

(** So two texts parsed with blank lines kept are equal configurations when their lines are the
    same, apart from white space at the end. *)
Lemma parsed_numbered o lines w : parse o lines = Ok w -> o_ignore_blank o = false -> numbered w.
Proof.
  intros E Hb i x Hx. destruct (parse_is_loaded o lines w E) as [Eo HL]. replace (input_lines o lines) with lines in HL by (unfold input_lines; now rewrite Hb).
  assert (KP : forall j, j < length lines -> line_kept (w_opts w) lines j).
  { intros j Hj. destruct (nth_error lines j) as [l|] eqn:El; [|apply nth_error_None in El; lia]. exists l. rewrite Eo. auto. }
  pose proof (C07_linenum_is_index w 0 lines i x HL KP Hx) as LN. destruct (C07_linenum_is_input_index w 0 lines x HL (nth_error_In _ _ Hx)) as (k & l & _ & _ & LK & _).
  unfold linenum_of in *. destruct (CfgModel.obj w x) as [c|]; [eauto|lia].
Qed.
Theorem C72_equal_parsed : forall o l1 l2 v w, o_ignore_blank o = false -> parse o l1 = Ok v -> parse o l2 = Ok w ->
  (cfg_eq v w = true <-> map rstrip l1 = map rstrip l2).
Proof.
  intros o l1 l2 v w Hb E1 E2. rewrite (C72_equal v w (parsed_numbered _ _ _ E1 Hb) (parsed_numbered _ _ _ E2 Hb)). now rewrite (C01_nothing_dropped _ _ _ E1 Hb), (C01_nothing_dropped _ _ _ E2 Hb).
Qed.
Print Assumptions C72_equal_parsed.

Lemma aligned_cmp f g : forall a b k, aligned k a -> aligned k b ->
  (exists r, map snd b = map snd a ++ r /\ list_cmp f g a b = Ok (g 0 (length r))) \/
  (exists x r, map snd a = map snd b ++ x :: r /\ list_cmp f g a b = Ok (g (S (length r)) 0)) \/
  (~ starts_with (map snd a) (map snd b) /\ ~ starts_with (map snd b) (map snd a) /\ exists x y, fst x = fst y /\ list_cmp f g a b = f x y).
Proof.
  induction a as [|x a IH]; intros [|y b] k Ka Kb.
  - left. exists []. split; reflexivity.
  - left. exists (map snd (y :: b)). split; [reflexivity|]. cbn. now rewrite map_length.
  - right. left. exists (snd x), (map snd a). split; [reflexivity|]. cbn. now rewrite map_length.
  - apply aligned_cons in Ka as [Ea Ka], Kb as [Eb Kb]. cbn [list_cmp map]. destruct (cell_eqb x y) eqn:E.
    + apply aligned_eqb in E; [|congruence]. destruct (IH b (S k) Ka Kb) as [(r & E1 & E2)|[(z & r & E1 & E2)|(N1 & N2 & K)]].
      * left. exists r. split; [cbn [app]; congruence|exact E2].
      * right. left. exists z, r. split; [cbn [app]; congruence|exact E2].
      * right. right. split; [|split; [|exact K]]; intros (r & Er); cbn [app] in Er; injection Er as _ Er; [apply N1|apply N2]; now exists r.
    + right. right. assert (NE : snd x <> snd y) by (intros Q; assert (cell_eqb x y = true) by (apply aligned_eqb; congruence); congruence).
      split; [|split; [|exists x, y; split; [congruence|reflexivity]]]; intros (r & Er); cbn [app] in Er; injection Er as Er _; congruence.
Qed.
(** For such configurations "less" means that the other begins with these lines and goes on;
    two configurations with a difference are not less, either way. *)
Theorem C72_less : forall v w, numbered v -> numbered w ->
  (goes_on (ioscfg v) (ioscfg w) -> cfg_lt v w = Ok true /\ cfg_gt v w = Ok false) /\
  (goes_on (ioscfg w) (ioscfg v) -> cfg_lt v w = Ok false /\ cfg_gt v w = Ok true) /\
  (~ goes_on (ioscfg v) (ioscfg w) -> ~ goes_on (ioscfg w) (ioscfg v) -> cfg_lt v w = Ok false /\ cfg_gt v w = Ok false).
Proof.
  intros v w Hv Hw. apply numbered_aligned in Hv, Hw. rewrite <- !texts_cells. unfold cfg_lt, cfg_gt. 
  pose proof (aligned_cmp (fun x y => Ok (cell_ltb x y)) Nat.ltb _ _ 0 Hv Hw) as L1. pose proof (aligned_cmp (fun x y => Ok (cell_gtb x y)) (fun m n => Nat.ltb n m) _ _ 0 Hv Hw) as L2.
  assert (NX : forall a b : list str, goes_on a b -> ~ starts_with b a). { intros a b (x & r & ->) (r' & E). apply (f_equal (@length str)) in E. rewrite !app_length in E. cbn in E. lia. }
  assert (GS : forall a b : list str, goes_on a b -> starts_with a b) by (intros a b (x & r & ->); now exists (x :: r)).
  split; [|split].
  - intros G1. pose proof (NX _ _ G1) as N1. pose proof (GS _ _ G1) as S1. destruct G1 as (x0 & r0 & E0). split.
    + destruct L1 as [(r & E & ->)|[(z & r & E & _)|(N2 & _)]]; [|exfalso; apply N1; now exists (z :: r)|tauto]. rewrite E0 in E. apply app_inv_head in E as <-. reflexivity.
    + destruct L2 as [(r & E & ->)|[(z & r & E & _)|(N2 & _)]]; [|exfalso; apply N1; now exists (z :: r)|tauto]. rewrite E0 in E. apply app_inv_head in E as <-. reflexivity.
  - intros G1. pose proof (NX _ _ G1) as N1. pose proof (GS _ _ G1) as S1. split.
    + destruct L1 as [(r & E & _)|[(z & r & E & ->)|(_ & N2 & _)]]; [exfalso; apply N1; now exists r|reflexivity|tauto].
    + destruct L2 as [(r & E & _)|[(z & r & E & ->)|(_ & N2 & _)]]; [exfalso; apply N1; now exists r|reflexivity|tauto].
  - intros N1 N2. split.
    + destruct L1 as [(r & E & ->)|[(z & r & E & _)|(_ & _ & x & y & Exy & ->)]]; [|exfalso; apply N2; now exists z, r|unfold cell_ltb; rewrite Exy; now rewrite Z.ltb_irrefl].
      destruct r as [|z r]; [reflexivity|]. exfalso. apply N1. now exists z, r.
    + destruct L2 as [(r & E & ->)|[(z & r & E & _)|(_ & _ & x & y & Exy & ->)]]; [|exfalso; apply N2; now exists z, r|unfold cell_gtb; rewrite Exy; now rewrite Z.ltb_irrefl].
      destruct r as [|z r]; [reflexivity|]. exfalso. apply N1. now exists z, r.
Qed.
Print Assumptions C72_less.
(** "Greater or equal" is true or false when one begins with the other, and a TypeError when
    there is a difference. *)
Theorem C72_greater_equal : forall v w, numbered v -> numbered w ->
  (starts_with (ioscfg w) (ioscfg v) -> cfg_ge v w = Ok true) /\
  (goes_on (ioscfg v) (ioscfg w) -> cfg_ge v w = Ok false) /\
  (~ starts_with (ioscfg v) (ioscfg w) -> ~ starts_with (ioscfg w) (ioscfg v) -> cfg_ge v w = Err TypeErr).
Proof.
  intros v w Hv Hw. apply numbered_aligned in Hv, Hw. rewrite <- !texts_cells. unfold cfg_ge.
  pose proof (aligned_cmp (fun _ _ => Err TypeErr) (fun m n => Nat.leb n m) _ _ 0 Hv Hw) as L1. split; [|split].
  - intros (r0 & E0). destruct L1 as [(r & E & ->)|[(z & r & E & ->)|(_ & N2 & _)]]; [|reflexivity|exfalso; apply N2; now exists r0].
    rewrite E0 in E. apply (f_equal (@length str)) in E. rewrite !app_length in E. assert (E1 : length r = 0) by lia. now rewrite E1.
  - intros (x0 & r0 & E0). destruct L1 as [(r & E & ->)|[(z & r & E & ->)|(N2 & _)]].
    + rewrite E0 in E. apply app_inv_head in E as <-. reflexivity.
    + exfalso. rewrite E0 in E. apply (f_equal (@length str)) in E. rewrite !app_length in E. cbn in E. lia.
    + exfalso. apply N2. now exists (x0 :: r0).
  - intros N1 N2. destruct L1 as [(r & E & _)|[(z & r & E & _)|(_ & _ & x & y & _ & ->)]]; [exfalso; apply N1; now exists r|exfalso; apply N2; now exists (z :: r)|reflexivity].
Qed.
Print Assumptions C72_greater_equal.
(** "Less or equal" is the same as "less": no configuration is less than or equal to itself. *)
Theorem C72_less_equal_refuted : (forall v w, cfg_le v w = cfg_lt v w) /\ forall w, cfg_le w w = Ok false.
Proof.
  split; [reflexivity|]. intros w. unfold cfg_le. induction (cells w) as [|c l IH]; [reflexivity|]. cbn [list_cmp]. assert (cell_eqb c c = true) as -> by now apply cell_eqb_iff. exact IH.
Qed.
Print Assumptions C72_less_equal_refuted.

(** ** Slices, sums, products and copies *)

Lemma construct_objs l : construct (map inl l) = match l with [] => Ok (mkW dflt [] []) | _ => Err ValueError end.
Proof. destruct l; reflexivity. Qed.
(** They are refused, unless no position is in the slice from [a] to [b]; one below zero counts
    from the end, one left out does not limit. *)
Theorem C72_slice_refuted : forall w a b, let n := Z.of_nat (length (w_conf w)) in
  let inside i := (0 <= i < n)%Z /\ (forall z, a = Some z -> (z <= i /\ 0 <= z \/ z < 0 /\ z + n <= i)%Z) /\ (forall z, b = Some z -> (i < z \/ z < 0 /\ i < z + n)%Z) in
  ((exists i, inside i) -> get_slice w a b = Err ValueError) /\
  ((forall i, ~ inside i) -> get_slice w a b = Ok (mkW dflt [] [])).
Proof.
  intros w a b n inside. unfold get_slice. rewrite construct_objs.
  assert (K : (exists i, inside i) <-> slice_of a b (w_conf w) <> []).
  { assert (LE : slice_of a b (w_conf w) <> [] <-> 0 < length (slice_of a b (w_conf w))) by (destruct (slice_of a b (w_conf w)); cbn; split; [congruence|lia|lia|discriminate]).
    rewrite LE. clear LE. unfold slice_of, clamp. rewrite firstn_length, skipn_length. unfold inside. fold n. split.
    - intros (i & Hi & Ha & Hb). destruct a as [a|], b as [b|]; try (specialize (Ha _ eq_refl)); try (specialize (Hb _ eq_refl));
        repeat match goal with |- context [(?z <? 0)%Z] => destruct (Z.ltb_spec z 0) end; lia.
    - intros Hlen. exists (match a with Some z => if (z <? 0)%Z then Z.max 0 (z + n) else z | None => 0%Z end).
      destruct a as [a|], b as [b|]; revert Hlen; repeat match goal with |- context [(?z <? 0)%Z] => destruct (Z.ltb_spec z 0) end; intros Hlen;
        (split; [lia|split; [intros z Ez; injection Ez as <- || discriminate Ez|intros z Ez; injection Ez as <- || discriminate Ez]]; lia). }
  split; intros H.
  - apply K in H. now destruct (slice_of a b (w_conf w)).
  - destruct (slice_of a b (w_conf w)) as [|x l]; [reflexivity|]. exfalso. destruct (proj2 K) as (i & Hi); [discriminate|]. exact (H i Hi).
Qed.
Print Assumptions C72_slice_refuted.
Example slice_ex : exists w, parse (mkOpts [] false Ios) [lit "a"; lit "b"] = Ok w /\ get_slice w (Some (-1)%Z) None = Err ValueError /\ get_slice w (Some (-9)%Z) (Some (-8)%Z) = Ok (mkW dflt [] []).
Proof. eexists. split; [vm_compute; reflexivity|]. split; vm_compute; reflexivity. Qed.
Theorem C72_copy_refuted : forall w x, In x (w_conf w) ->
  copy w = Err ValueError /\ (forall l, plus w l = Err ValueError) /\ (forall z, (0 < z)%Z -> mul w z = Err ValueError).
Proof.
  intros w x I0. assert (NE : exists y l, w_conf w = y :: l) by (destruct (w_conf w); [destruct I0|eauto]). destruct NE as (y & l & E). unfold copy, plus, mul. rewrite E. split; [reflexivity|]. split; [reflexivity|].
  intros z Hz. destruct (Z.to_nat z) eqn:Ez; [lia|]. reflexivity.
Qed.
Print Assumptions C72_copy_refuted.
(** One line of the list, counted from either end *)
Theorem C72_get_item : forall w z, let n := Z.of_nat (length (w_conf w)) in
  ((0 <= z < n)%Z -> exists x, get_item w z = Ok x /\ nth_error (w_conf w) (Z.to_nat z) = Some x) /\
  ((- n <= z < 0)%Z -> exists x, get_item w z = Ok x /\ nth_error (w_conf w) (Z.to_nat (n + z)) = Some x) /\
  ((z < - n \/ n <= z)%Z -> get_item w z = Err IndexError).
Proof.
  intros w z n. assert (NT : forall i, i < length (w_conf w) -> exists x, nth_error (w_conf w) i = Some x) by (intros i Hi; destruct (nth_error (w_conf w) i) eqn:E; [eauto|apply nth_error_None in E; lia]).
  unfold get_item, py_index. fold n. split; [|split].
  - intros Hz. destruct (Z.leb_spec 0 z), (Z.ltb_spec z n); try lia. cbn [andb]. destruct (NT (Z.to_nat z)) as (x & ->); [lia|]. eauto.
  - intros Hz. destruct (Z.leb_spec 0 z), (Z.ltb_spec z 0), (Z.leb_spec (- n) z); try lia. cbn [andb]. destruct (NT (Z.to_nat (n + z))) as (x & ->); [lia|]. eauto.
  - intros Hz. destruct (Z.leb_spec 0 z), (Z.ltb_spec z n), (Z.ltb_spec z 0), (Z.leb_spec (- n) z); try lia; reflexivity.
Qed.
Print Assumptions C72_get_item.

(** ** Changes in place *)

Lemma obj_eqb_iff w x y : (exists l, CfgModel.obj w x = Some l) -> (exists l, CfgModel.obj w y = Some l) -> (obj_eqb w x y = true <-> equal_objects w x y).
Proof. intros (l & E1) (m & E2). unfold obj_eqb, key_of, equal_objects, linenum_of, text_of, key. rewrite E1, E2. apply str_eqb_eq. Qed.
Definition known (w : world) : Prop := forall x, In x (w_conf w) -> exists l, CfgModel.obj w x = Some l.
Lemma remove_spec w x : known w -> (exists l, CfgModel.obj w x = Some l) -> forall l, (forall y, In y l -> In y (w_conf w)) ->
  (forall l', remove_first w x l = Ok l' <-> without_first (fun y => equal_objects w y x) l l') /\ (remove_first w x l = Err ValueError <-> forall y, In y l -> ~ equal_objects w y x).
Proof.
  intros KW KX. induction l as [|y l IH]; intros IN.
  - split; [intros l'; split; [discriminate|intros (pre & z & post & E & _); now destruct pre]|split; [intros _ y []|reflexivity]].
  - destruct (IH (fun z Hz => IN z (or_intror Hz))) as [IH1 IH2]. cbn [remove_first]. pose proof (obj_eqb_iff w y x (KW y (IN y (or_introl eq_refl))) KX) as EB. destruct (obj_eqb w y x) eqn:E.
    + pose proof (proj1 EB eq_refl) as EQ. split.
      * intros l'. split; [intros [= <-]; exists [], y, l; split; [reflexivity|split; [intros ? []|auto]]|]. intros (pre & z & post & E0 & N0 & Pz & ->). destruct pre as [|u pre]; cbn [app] in E0; injection E0 as -> ->; [reflexivity|]. exfalso. exact (N0 u (or_introl eq_refl) EQ).
      * split; [discriminate|]. intros K. exfalso. exact (K y (or_introl eq_refl) EQ).
    + assert (NQ : ~ equal_objects w y x) by (intros Q; apply EB in Q; discriminate). split.
      * intros l'. split.
        -- destruct (remove_first w x l) as [l1|] eqn:E1; [|discriminate]. intros [= <-]. destruct (proj1 (IH1 l1) eq_refl) as (pre & z & post & -> & N0 & Pz & ->). exists (y :: pre), z, post. split; [reflexivity|]. split; [intros u [<- |Hu]; auto|auto].
        -- intros (pre & z & post & E0 & N0 & Pz & ->). destruct pre as [|u pre]; cbn [app] in E0; injection E0 as -> ->; [tauto|]. rewrite (proj2 (IH1 (pre ++ post))); [reflexivity|]. exists pre, z, post. split; [reflexivity|]. split; [intros v Hv; apply N0; now right|auto].
      * split.
        -- destruct (remove_first w x l) as [l1|e] eqn:E1; [discriminate|]. cbn [bind]. intros [= ->]. intros z [<- |Hz]; [exact NQ|]. now apply IH2.
        -- intros K. rewrite (proj2 IH2); [reflexivity|]. intros z Hz. apply K. now right.
Qed.
Theorem C72_remove : forall w x, known w -> (exists l, CfgModel.obj w x = Some l) ->
  (forall w', remove w x = Ok w' <-> exists c, without_first (fun y => equal_objects w y x) (w_conf w) c /\ w' = mkW (w_opts w) (w_heap w) c) /\
  (remove w x = Err ValueError <-> forall y, In y (w_conf w) -> ~ equal_objects w y x).
Proof.
  intros w x KW KX. destruct (remove_spec w x KW KX (w_conf w) (fun y Hy => Hy)) as [K1 K2]. unfold remove, set_conf. split.
  - intros w'. split; [destruct (remove_first w x (w_conf w)) as [c|] eqn:E; [|discriminate]; intros [= <-]; exists c; split; [now apply K1|reflexivity]|]. intros (c & K & ->). apply K1 in K. now rewrite K.
  - rewrite <- K2. destruct (remove_first w x (w_conf w)) as [c|e]; cbn [bind]; split; intros E; try discriminate; now injection E as ->.
Qed.
Print Assumptions C72_remove.
(** The text after the other changes; the objects themselves stay as they are. *)
Theorem C72_changes : forall w,
  (forall l, ioscfg (extend w l) = ioscfg w ++ map (text_of w) l /\ w_heap (extend w l) = w_heap w) /\
  (forall x, ioscfg (append w x) = ioscfg w ++ [text_of w x] /\ w_heap (append w x) = w_heap w) /\
  (ioscfg (clear w) = [] /\ w_heap (clear w) = w_heap w) /\
  (ioscfg (reverse w) = rev (ioscfg w) /\ w_heap (reverse w) = w_heap w) /\
  (forall z, ioscfg (imul w z) = concat (repeat (ioscfg w) (Z.to_nat z)) /\ w_heap (imul w z) = w_heap w).
Proof.
  intros w. assert (ET : forall c x, text_of (set_conf c w) x = text_of w x) by reflexivity. unfold ioscfg. cbn [extend append clear reverse imul w_conf w_heap set_conf].
  split; [intros l; split; [now rewrite map_app|reflexivity]|]. split; [intros x; split; [now rewrite map_app|reflexivity]|]. split; [split; reflexivity|]. split; [split; [now rewrite <- map_rev|reflexivity]|].
  intros z. split; [|reflexivity]. induction (Z.to_nat z) as [|n IH]; [reflexivity|]. cbn [times repeat concat]. rewrite map_app. f_equal. exact IH.
Qed.
Print Assumptions C72_changes.
Theorem C72_set_item : forall w z x, let n := Z.of_nat (length (w_conf w)) in
  ((z < - n \/ n <= z)%Z -> set_item w z x = Err IndexError) /\
  ((- n <= z < n)%Z -> exists a y b w', w_conf w = a ++ y :: b /\ Z.of_nat (length a) = (if z <? 0 then n + z else z)%Z /\
     set_item w z x = Ok w' /\ w_conf w' = a ++ x :: b /\ w_heap w' = w_heap w /\ w_opts w' = w_opts w).
Proof.
  intros w z x n. unfold set_item, py_index. fold n. split.
  - intros Hz. destruct (Z.leb_spec 0 z), (Z.ltb_spec z n), (Z.ltb_spec z 0), (Z.leb_spec (- n) z); try lia; reflexivity.
  - intros Hz. set (i := Z.to_nat (if z <? 0 then n + z else z)%Z). assert (Hi : i < length (w_conf w)) by (unfold i; destruct (Z.ltb_spec z 0); lia).
    destruct (nth_error (w_conf w) i) as [y|] eqn:E; [|apply nth_error_None in E; lia]. apply nth_error_split in E as (a & b & E & La).
    assert (EF : firstn i (w_conf w) = a) by (rewrite E, <- La, firstn_app, Nat.sub_diag, firstn_all; cbn; apply app_nil_r).
    assert (ES : skipn (S i) (w_conf w) = b) by (rewrite E, <- La, skipn_app; rewrite (skipn_all2 a) by lia; replace (S (length a) - length a) with 1 by lia; reflexivity).
    exists a, y, b, (set_conf (a ++ x :: b) w). split; [exact E|]. split; [rewrite La; unfold i; destruct (Z.ltb_spec z 0); lia|]. split; [|auto].
    destruct (Z.leb_spec 0 z), (Z.ltb_spec z n), (Z.ltb_spec z 0), (Z.leb_spec (- n) z); try lia; cbn [andb]; fold i; unfold i in *; destruct (Z.ltb_spec z 0); try lia; now rewrite EF, ES.
Qed.
Print Assumptions C72_set_item.
(** Sorting puts lines that were shuffled back in order. *)
Theorem C72_sort : forall w c, numbered w -> Permutation c (w_conf w) -> w_conf (sort (set_conf c w)) = w_conf w.
Proof.
  intros w c HN HP. unfold sort, sorted_objs, set_conf at 1. cbn [w_conf set_conf]. change (linenum_of (set_conf c w)) with (linenum_of w).
  assert (LT : forall i x, nth_error (w_conf w) i = Some x -> linenum_of w x = Z.of_nat i) by (intros i x E; destruct (HN i x E) as (l & El & En); unfold linenum_of; now rewrite El).
  assert (SS : forall l k, (forall i x, nth_error l i = Some x -> linenum_of w x = Z.of_nat (k + i)) -> StronglySorted (lt_key (linenum_of w)) l).
  { induction l as [|x l IH]; intros k K; constructor.
    - apply (IH (S k)). intros i y E. rewrite (K (S i) y E). f_equal. lia.
    - apply Forall_forall. intros y Hy. apply In_nth_error in Hy as (i & Hi). unfold lt_key. rewrite (K 0 x eq_refl), (K (S i) y Hi). lia. }
  assert (S1 : StronglySorted (lt_key (linenum_of w)) (w_conf w)) by (apply (SS _ 0); exact LT).
  assert (IJ : forall x y, In x (w_conf w) -> In y (w_conf w) -> linenum_of w x = linenum_of w y -> x = y).
  { intros x y Hx Hy E. apply In_nth_error in Hx as (i & Hi), Hy as (j & Hj). rewrite (LT i x Hi), (LT j y Hj) in E. assert (i = j) as -> by lia. congruence. }
  assert (P2 : Permutation (sort_by (linenum_of w) c) (w_conf w)) by (rewrite <- (sort_by_perm (linenum_of w) c); exact HP).
  pose proof (sort_by_sorted (linenum_of w) c) as S2. revert P2 S2 IJ S1. generalize (sort_by (linenum_of w) c) as a. generalize (w_conf w) as b. clear.
  induction b as [|y b IH]; intros a P2 S2 IJ S1; [now apply Permutation_sym, Permutation_nil in P2|]. destruct a as [|x a]; [now apply Permutation_nil in P2|].
  assert (x = y) as ->.
  { assert (Ix : In x (y :: b)) by (apply (Permutation_in x P2); now left). assert (Iy : In y (x :: a)) by (apply (Permutation_in y (Permutation_sym P2)); now left).
    destruct Ix as [-> |Ix]; [reflexivity|]. destruct Iy as [-> |Iy]; [reflexivity|]. apply StronglySorted_inv in S1 as [_ F1], S2 as [_ F2]. rewrite Forall_forall in F1, F2. specialize (F1 x Ix). specialize (F2 y Iy). unfold lt_key, le_key in *. lia. }
  f_equal. apply IH; [now apply Permutation_cons_inv in P2|now apply StronglySorted_inv in S2|intros u v Hu Hv; apply IJ; now right|now apply StronglySorted_inv in S1].
Qed.
Print Assumptions C72_sort.

(** ** Questions *)

(** The first position with an equal object; counting all of them *)
Theorem C72_index : forall w x, known w -> (exists l, CfgModel.obj w x = Some l) ->
  (forall i, index w x = Ok i <-> exists y, nth_error (w_conf w) i = Some y /\ equal_objects w y x /\ forall j z, j < i -> nth_error (w_conf w) j = Some z -> ~ equal_objects w z x) /\
  (index w x = Err ValueError <-> forall y, In y (w_conf w) -> ~ equal_objects w y x) /\
  (is_in w x = true <-> exists y, In y (w_conf w) /\ equal_objects w y x) /\
  (exists l, Forall (fun y => In y (w_conf w) /\ equal_objects w y x) l /\ count w x = length l /\ (NoDup (w_conf w) -> NoDup l /\ forall y, In y (w_conf w) -> equal_objects w y x -> In y l)).
Proof.
  intros w x KW KX. assert (EB : forall y, In y (w_conf w) -> (obj_eqb w y x = true <-> equal_objects w y x)) by (intros y Hy; apply obj_eqb_iff; auto).
  assert (IX : forall l k, (forall y, In y l -> In y (w_conf w)) ->
    (forall i, index_from w x l k = Ok i <-> exists n y, i = k + n /\ nth_error l n = Some y /\ equal_objects w y x /\ forall j z, j < n -> nth_error l j = Some z -> ~ equal_objects w z x) /\
    (index_from w x l k = Err ValueError <-> forall y, In y l -> ~ equal_objects w y x)).
  { induction l as [|y l IH]; intros k IN.
    - split; [intros i; split; [discriminate|intros (n & y & _ & E & _); now destruct n]|split; [intros _ y []|reflexivity]].
    - destruct (IH (S k) (fun z Hz => IN z (or_intror Hz))) as [IH1 IH2]. cbn [index_from]. pose proof (EB y (IN y (or_introl eq_refl))) as EY. destruct (obj_eqb w y x) eqn:E.
      + pose proof (proj1 EY eq_refl) as EQ. split.
        * intros i. split; [intros [= <-]; exists 0, y; split; [lia|split; [reflexivity|split; [exact EQ|lia]]]|]. intros (n & z & -> & En & Ez & NB). destruct n as [|n]; [f_equal; lia|]. exfalso. exact (NB 0 y ltac:(lia) eq_refl EQ).
        * split; [discriminate|]. intros K. exfalso. exact (K y (or_introl eq_refl) EQ).
      + assert (NQ : ~ equal_objects w y x) by (intros Q; apply EY in Q; discriminate). split.
        * intros i. rewrite IH1. split.
          -- intros (n & z & -> & En & Ez & NB). exists (S n), z. split; [lia|]. split; [exact En|]. split; [exact Ez|]. intros [|j] u Hj Hu; [injection Hu as <-; exact NQ|]. apply (NB j u); [lia|exact Hu].
          -- intros (n & z & -> & En & Ez & NB). destruct n as [|n]; [injection En as ->; tauto|]. exists n, z. split; [lia|]. split; [exact En|]. split; [exact Ez|]. intros j u Hj Hu. apply (NB (S j) u); [lia|exact Hu].
        * rewrite IH2. split; [intros K z [<- |Hz]; auto|intros K z Hz; apply K; now right]. }
  destruct (IX (w_conf w) 0 (fun y Hy => Hy)) as [I1 I2]. split; [|split; [exact I2|split]].
  - intros i. unfold index. rewrite I1. split; [intros (n & y & -> & K); exists y; exact K|intros (y & K); exists i, y; split; [reflexivity|exact K]].
  - unfold is_in. rewrite existsb_exists. split; intros (y & Hy & E); exists y; (split; [exact Hy|now apply EB]).
  - exists (filter (fun y => obj_eqb w y x) (w_conf w)). split; [apply Forall_forall; intros y Hy; apply filter_In in Hy as [Hy E]; split; [exact Hy|now apply EB]|]. split; [reflexivity|].
    intros ND. split; [now apply NoDup_filter|]. intros y Hy E. apply filter_In. split; [exact Hy|now apply EB].
Qed.
Print Assumptions C72_index.
(** In a configuration whose lines are in order and do not begin with a digit, a line has its
    number as index and counts once. *)
Theorem C72_index_parsed : forall w i x, numbered w -> no_digit_lines w -> nth_error (w_conf w) i = Some x ->
  index w x = Ok i /\ count w x = 1 /\ is_in w x = true /\ linenum_of w x = Z.of_nat i.
Proof.
  intros w i x HN HD Hx. assert (Ix : In x (w_conf w)) by (now apply nth_error_In in Hx). pose proof (live_eqb w HN HD) as LE.
  assert (LN : forall j y, nth_error (w_conf w) j = Some y -> linenum_of w y = Z.of_nat j) by (intros j y E; destruct (HN j y E) as (l & El & En); unfold linenum_of; now rewrite El).
  assert (IJ : forall j, nth_error (w_conf w) j = Some x -> j = i) by (intros j E; apply LN in E; apply LN in Hx; lia).
  assert (EQ : forall y, In y (w_conf w) -> obj_eqb w y x = (y =? x)) by (intros y Hy; exact (LE y x Hy Ix)).
  split; [|split; [|split; [|auto]]].
  - unfold index. assert (G0 : forall l k n, (forall y, In y l -> obj_eqb w y x = (y =? x)) -> nth_error l n = Some x -> (forall j, nth_error l j = Some x -> j = n) -> index_from w x l k = Ok (k + n)).
    { induction l as [|y l IH]; intros k n E En U; [now destruct n|]. cbn [index_from]. rewrite (E y (or_introl eq_refl)). destruct (Nat.eqb_spec y x) as [-> |NE].
      - rewrite <- (U 0 eq_refl). f_equal. lia.
      - destruct n as [|n]; [injection En as ->; congruence|]. rewrite (IH (S k) n); [f_equal; lia|intros z Hz; apply E; now right|exact En|]. intros j Ej. specialize (U (S j) Ej). lia. }
    exact (G0 (w_conf w) 0 i EQ Hx IJ).
  - unfold count. assert (G0 : forall l n, (forall y, In y l -> obj_eqb w y x = (y =? x)) -> nth_error l n = Some x -> (forall j, nth_error l j = Some x -> j = n) -> length (filter (fun y => obj_eqb w y x) l) = 1).
    { induction l as [|y l IH]; intros n E En U; [now destruct n|]. cbn [filter]. rewrite (E y (or_introl eq_refl)). destruct (Nat.eqb_spec y x) as [-> |NE].
      - cbn [length]. f_equal. assert (Z0 : filter (fun y => obj_eqb w y x) l = []); [|now rewrite Z0].
        destruct (filter (fun y => obj_eqb w y x) l) as [|z r] eqn:EF; [reflexivity|]. exfalso. assert (Iz : In z (filter (fun y => obj_eqb w y x) l)) by (rewrite EF; now left). apply filter_In in Iz as [Iz Ez]. rewrite (E z (or_intror Iz)) in Ez. apply Nat.eqb_eq in Ez as ->.
        apply In_nth_error in Iz as (j & Hj). pose proof (U (S j) Hj). pose proof (U 0 eq_refl). lia.
      - destruct n as [|n]; [injection En as ->; congruence|]. apply (IH n); [intros z Hz; apply E; now right|exact En|]. intros j Ej. specialize (U (S j) Ej). lia. }
    exact (G0 (w_conf w) i EQ Hx IJ).
  - unfold is_in. apply existsb_exists. exists x. split; [exact Ix|]. rewrite (EQ x Ix). apply Nat.eqb_refl.
Qed.
Print Assumptions C72_index_parsed.
(** The iterators: the lines from that position on, all or those that are no comments *)
Theorem C72_iterators : forall w z,
  iter_with_comments w z = skipn (Z.to_nat z) (w_conf w) /\
  iter_no_comments w z = filter (fun x => negb (is_comment w x)) (skipn (Z.to_nat z) (w_conf w)) /\
  (forall x, In x (conf_parents w) <-> In x (w_conf w) /\ exists c, In c (children_of w x)) /\
  last_index w = (Z.of_nat (length (w_conf w)) - 1)%Z.
Proof.
  intros w z. assert (G0 : forall keep l i, (0 <= i)%Z -> from_index keep z i l = filter keep (skipn (Z.to_nat (z - i)) l)).
  { intros keep. induction l as [|x l IH]; intros i Hi; cbn [from_index]; [now rewrite skipn_nil|]. rewrite IH by lia. destruct (Z.leb_spec z i) as [K|K]; cbn [andb].
    - replace (Z.to_nat (z - i)) with 0 by lia. replace (Z.to_nat (z - (i + 1))) with 0 by lia. reflexivity.
    - replace (Z.to_nat (z - i)) with (S (Z.to_nat (z - (i + 1)))) by lia. reflexivity. }
  split; [|split; [|split; [|reflexivity]]].
  - unfold iter_with_comments. rewrite G0 by lia. rewrite Z.sub_0_r. generalize (skipn (Z.to_nat z) (w_conf w)). induction l as [|x l IH]; [reflexivity|]. cbn. now rewrite IH.
  - unfold iter_no_comments. rewrite G0 by lia. now rewrite Z.sub_0_r.
  - intros x. unfold conf_parents. rewrite filter_In. destruct (children_of w x) as [|c l]; cbn; split; intros [K1 K2]; split; auto; try discriminate; [destruct K2 as (? & [])|exists c; now left].
Qed.
Print Assumptions C72_iterators.

(** ** Examples *)

Definition w1 : world := get w_none (parse oT (map lit ["a"; " b"; " ! note"; "c"]%string)).
Definition w2 : world := get w_none (parse oT (map lit ["a"; " b"; " ! note"; "c"; "d"]%string)).
Definition w3 : world := get w_none (parse oT (map lit ["a"; " x"]%string)).
Lemma numbered_dec w : forallb (fun p => match CfgModel.obj w (snd p) with Some l => Z.eqb (cl_linenum l) (Z.of_nat (fst p)) | None => false end) (combine (seq 0 (length (w_conf w))) (w_conf w)) = true -> numbered w.
Proof.
  intros K i x E. rewrite forallb_forall in K. assert (I0 : In (i, x) (combine (seq 0 (length (w_conf w))) (w_conf w))).
  { assert (G0 : forall l k, nth_error l i = Some x -> In (k + i, x) (combine (seq k (length l)) l)).
    { clear. induction i as [|i IH]; intros [|y l] k E; try discriminate; cbn in *; [injection E as ->; left; f_equal; lia|]. right. replace (k + S i) with (S k + i) by lia. now apply IH. }
    exact (G0 (w_conf w) 0 E). }
  specialize (K _ I0). cbn [fst snd] in K. destruct (CfgModel.obj w x) as [l|]; [|discriminate]. exists l. split; [reflexivity|]. now apply Z.eqb_eq.
Qed.
Example numbered_ex : numbered w1 /\ numbered w2 /\ numbered w3 /\ no_digit_lines w1.
Proof. split; [|split; [|split]]; try (apply numbered_dec; vm_compute; reflexivity). intros x K. vm_compute in K. repeat (destruct K as [<- |K]; [vm_compute; reflexivity|]). destruct K. Qed.
Example compare_ex : cfg_eq w1 w1 = true /\ cfg_eq w1 w2 = false /\ cfg_lt w1 w2 = Ok true /\ cfg_gt w2 w1 = Ok true /\ cfg_ge w2 w1 = Ok true /\ cfg_ge w1 w2 = Ok false /\
  cfg_lt w1 w3 = Ok false /\ cfg_gt w1 w3 = Ok false /\ cfg_ge w1 w3 = Err TypeErr.
Proof. vm_compute. repeat split; reflexivity. Qed.
Example changes_ex : ioscfg (reverse w1) = rev (ioscfg w1) /\ w_conf (reverse w1) <> w_conf w1 /\ w_conf (sort (reverse w1)) = w_conf w1 /\ iter_no_comments w1 1 = [1; 3] /\ conf_parents w1 = [0] /\ index w1 3 = Ok 3 /\
  known w1 /\ (exists w', remove w1 2 = Ok w' /\ w_conf w' = [0; 1; 3]) /\ get_slice w1 (Some 1%Z) (Some 3%Z) = Err ValueError.
Proof.
  split; [vm_compute; reflexivity|]. split; [vm_compute; discriminate|]. split; [vm_compute; reflexivity|]. split; [vm_compute; reflexivity|]. split; [vm_compute; reflexivity|]. split; [vm_compute; reflexivity|]. split.
  - intros x K. vm_compute in K. repeat (destruct K as [<- |K]; [eexists; vm_compute; reflexivity|]). destruct K.
  - split; [eexists; split; [vm_compute; reflexivity|reflexivity]|vm_compute; reflexivity].
Qed.
