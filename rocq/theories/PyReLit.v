(** Patterns that are plain texts, with runs of white space and anchors. *)
From Coq Require Import Ascii String Arith NArith ZArith Bool List Lia.
From Verif Require Import PyStr PyStrFacts PyBase SearchModel PyRe PyReFacts PyReTmpl PyReSent.
Import ListNotations.
Local Open Scope char_scope.

(** A character that stands for itself in a pattern. *)
Definition special : str := lit ".^$*+?{}[]\|()".
Definition plain_char (c : ascii) : bool := negb (has_char c special).

Inductive elem := EChar (c : ascii) | EGap | EBol | EEol.
Definition elem_ok (e : elem) : bool := match e with EChar c => plain_char c | _ => true end.
Definition elem_text (e : elem) : str := match e with EChar c => [c] | EGap => lit "\s+" | EBol => ["^"] | EEol => ["$"] end.
Definition elem_re (e : elem) : re := match e with EChar c => chr c | EGap => rplus true (RSet sp) | EBol => RBol | EEol => REol end.
Definition text (es : list elem) : str := flat_map elem_text es.

(** What follows an atom is no quantifier, no bar and no parenthesis. *)
Lemma next_free es : forallb elem_ok es = true ->
  match text es with [] => True | c :: _ => plain_char c = true \/ c = "\" \/ c = "^" \/ c = "$" end.
Proof.
  destruct es as [|[c| | |] es]; cbn; auto. intros H. apply andb_true_iff in H as [H _]. auto.
Qed.
Lemma quantify_free a s : match s with [] => True | c :: _ => plain_char c = true \/ c = "\" \/ c = "^" \/ c = "$" end -> quantify a s = (a, s).
Proof.
  destruct s as [|c s]; [reflexivity|]. intros [H|[->|[->| ->]]]; [|reflexivity..].
  destruct c as [[] [] [] [] [] [] [] []]; try discriminate H; reflexivity.
Qed.
Lemma atom_char c r f e : plain_char c = true -> read_atom false (S f) e (c :: r) = Some (chr c, e, r).
Proof. intros H. destruct c as [[] [] [] [] [] [] [] []]; try discriminate H; reflexivity. Qed.

Definition seq_cont (f : nat) (b : re) (e1 : env) (r1 : str) : option (re * env * str) :=
  match r1 with
  | [] => Some (b, e1, r1)
  | "|" :: _ | ")" :: _ => Some (b, e1, r1)
  | _ => match read_seq false f e1 r1 with Some (d, e2, r2) => Some (RCat b d, e2, r2) | None => None end
  end.
Lemma seq_step f e c r : plain_char c = true \/ c = "\" \/ c = "^" \/ c = "$" -> read_seq false (S f) e (c :: r) =
  match read_atom false f e (c :: r) with
  | Some (a, e1, r') => let (b, r1) := quantify a r' in seq_cont f b e1 r1
  | None => None
  end.
Proof. intros [H|[->|[->| ->]]]; [|reflexivity..]. destruct c as [[] [] [] [] [] [] [] []]; try discriminate H; reflexivity. Qed.
Lemma cont_free f b e s : match s with [] => True | c :: _ => plain_char c = true \/ c = "\" \/ c = "^" \/ c = "$" end -> s <> [] ->
  seq_cont f b e s = match read_seq false f e s with Some (d, e2, r2) => Some (RCat b d, e2, r2) | None => None end.
Proof.
  destruct s as [|c s]; [congruence|]. intros [H|[->|[->| ->]]] _; [|reflexivity..].
  destruct c as [[] [] [] [] [] [] [] []]; try discriminate H; reflexivity.
Qed.

Lemma read_elem x es f e : elem_ok x = true -> forallb elem_ok es = true -> read_seq false (S (S f)) e (elem_text x ++ text es) = seq_cont (S f) (elem_re x) e (text es).
Proof.
  intros Hx Hes. pose proof (next_free es Hes) as F. destruct x as [c| | |]; cbn [elem_text app elem_re].
  - rewrite seq_step by (left; exact Hx). rewrite atom_char by exact Hx. now rewrite quantify_free.
  - change (lit "\s+" ++ text es) with ("\" :: "s" :: "+" :: text es). rewrite seq_step by auto.
    change (read_atom false (S f) e ("\" :: "s" :: "+" :: text es)) with (Some (RSet sp, e, "+" :: text es)).
    assert (Q : quantify (RSet sp) ("+" :: text es) = (rplus true (RSet sp), text es)).
    { destruct (text es) as [|c s]; [reflexivity|]. destruct F as [H|[->|[->| ->]]]; [|reflexivity..].
      destruct c as [[] [] [] [] [] [] [] []]; try discriminate H; reflexivity. }
    cbv beta iota. rewrite Q. reflexivity.
  - rewrite seq_step by auto. change (read_atom false (S f) e ("^" :: text es)) with (Some (RBol, e, text es)). cbv beta iota. now rewrite quantify_free.
  - rewrite seq_step by auto. change (read_atom false (S f) e ("$" :: text es)) with (Some (REol, e, text es)). cbv beta iota. now rewrite quantify_free.
Qed.
Lemma text_nil es : text es = [] -> es = [].
Proof. destruct es as [|[c| | |] es]; [reflexivity|discriminate..]. Qed.
Lemma read_elems es : forall x f e, forallb elem_ok (x :: es) = true -> 2 + length es <= f ->
  read_seq false f e (text (x :: es)) = Some (row (map elem_re (x :: es)), e, []).
Proof.
  induction es as [|y es IH]; intros x f e H L; cbn [forallb] in H; apply andb_true_iff in H as [Hx H]; (destruct f as [|[|f]]; [cbn [length] in L; lia|cbn [length] in L; lia|]).
  - change (text [x]) with (elem_text x ++ text []). now rewrite read_elem.
  - change (text (x :: y :: es)) with (elem_text x ++ text (y :: es)). rewrite read_elem by assumption. rewrite cont_free.
    + rewrite IH; [reflexivity|exact H|]. cbn [length] in L. lia.
    + now apply next_free.
    + intros K. now apply text_nil in K.
Qed.
Lemma text_length es : length es <= length (text es).
Proof. induction es as [|x es IH]; [reflexivity|]. cbn [text flat_map]. rewrite app_length. fold (text es). destruct x; cbn; lia. Qed.
Lemma compile_elems es : forallb elem_ok es = true -> compile false (text es) = Some (row (map elem_re es), (0, [])).
Proof.
  intros H. destruct es as [|x es]; [reflexivity|]. unfold compile. pose proof (text_length (x :: es)) as L. cbn [length] in L.
  remember (4 * S (length (text (x :: es)))) as f eqn:E. destruct f as [|f]; [lia|]. cbn [read_alt]. rewrite read_elems; [reflexivity|exact H|lia].
Qed.

(** What they match. *)
Inductive spelled : list elem -> str -> Prop :=
| sp_nil : spelled [] []
| sp_char c es w : spelled es w -> spelled (EChar c :: es) (c :: w)
| sp_gap g es w : all_in sp g -> g <> [] -> spelled es w -> spelled (EGap :: es) (g ++ w).
Definition inner (e : elem) : bool := match e with EChar _ | EGap => true | _ => false end.

Lemma M_row_cons a l i s c i2 s2 c2 : M (row (a :: l)) i s c i2 s2 c2 <-> exists i1 s1 c1, M a i s c i1 s1 c1 /\ M (row l) i1 s1 c1 i2 s2 c2.
Proof.
  destruct l as [|b l]; cbn [row]; [|apply M_cat_iff]. split.
  - intros H. exists i2, s2, c2. split; [exact H|constructor].
  - intros (i1 & s1 & c1 & H & E). apply M_eps_iff in E as (-> & -> & ->). exact H.
Qed.
Lemma M_elems es tail : forall i s c i2 s2 c2, forallb inner es = true ->
  (M (row (map elem_re es ++ tail)) i s c i2 s2 c2 <-> exists w s1, s = w ++ s1 /\ spelled es w /\ M (row tail) (i + length w) s1 c i2 s2 c2).
Proof.
  induction es as [|x es IH]; intros i s c i2 s2 c2 H.
  - cbn [map app]. split.
    + intros A. exists [], s. split; [reflexivity|]. split; [constructor|]. cbn [length]. now rewrite Nat.add_0_r.
    + intros (w & s1 & -> & Sp & A). inversion Sp; subst. cbn [app length] in *. now rewrite Nat.add_0_r in A.
  - cbn [forallb] in H. apply andb_true_iff in H as [Hx H]. cbn [map app]. rewrite M_row_cons. destruct x as [a| | |]; try discriminate Hx; cbn [elem_re].
    + split.
      * intros (i1 & s1 & c1 & A & B). apply M_chr_iff in A as (-> & -> & ->). apply (IH _ _ _ _ _ _ H) in B as (w & s3 & -> & Sp & B).
        exists (a :: w), s3. split; [reflexivity|]. split; [now constructor|]. cbn [length]. now rewrite <- Nat.add_succ_comm.
      * intros (w & s1 & -> & Sp & B). inversion Sp as [|? ? w' Sp'|]; subst. exists (S i), (w' ++ s1), c. split; [apply M_chr_iff; auto|].
        apply (IH _ _ _ _ _ _ H). exists w', s1. cbn [length] in B. rewrite <- Nat.add_succ_comm in B. auto.
    + split.
      * intros (i1 & s1 & c1 & A & B). apply M_plus_iff in A as (g & -> & Ng & Ag & -> & ->). apply (IH _ _ _ _ _ _ H) in B as (w & s3 & -> & Sp & B).
        exists (g ++ w), s3. rewrite <- app_assoc. split; [reflexivity|]. split; [now constructor|]. rewrite app_length. now rewrite Nat.add_assoc.
      * intros (w & s1 & -> & Sp & B). inversion Sp as [| |g ? w' Ag Ng Sp']; subst. exists (i + length g), (w' ++ s1), c.
        split; [apply M_plus_iff; exists g; rewrite <- app_assoc; auto|]. apply (IH _ _ _ _ _ _ H). exists w', s1. rewrite app_length, Nat.add_assoc in B. auto.
Qed.

Theorem hits_elems es t : forallb elem_ok es = true -> forallb inner es = true ->
  (hits (pattern false (text es)) t = true <-> exists u w v, t = u ++ w ++ v /\ spelled es w).
Proof.
  intros H1 H2. unfold hits, pattern. cbn [rx_find]. rewrite (compile_elems es H1). pose proof (app_nil_r (map elem_re es)) as N. split.
  - destruct (search (row (map elem_re es)) t) as [[m c]|] eqn:S; [|discriminate]. intros _. apply search_some in S as (u & v & i' & s' & -> & A & _).
    rewrite <- N in A. apply (M_elems es [] _ _ _ _ _ _ H2) in A as (w & s1 & -> & Sp & _). eauto 6.
  - intros (u & w & v & -> & Sp). destruct (search (row (map elem_re es)) (u ++ w ++ v)) as [[m c]|] eqn:S; [reflexivity|]. exfalso.
    apply (search_none _ _ S u (w ++ v) (length u + length w) v [] eq_refl). rewrite <- N. apply (M_elems es [] _ _ _ _ _ _ H2). exists w, v.
    split; [reflexivity|]. split; [exact Sp|]. constructor.
Qed.
Theorem hits_exact es t : forallb elem_ok es = true -> forallb inner es = true ->
  (hits (pattern false (text (EBol :: es ++ [EEol]))) t = true <-> exists w e, t = w ++ e /\ spelled es w /\ (e = [] \/ e = ["010"])).
Proof.
  intros H1 H2. unfold hits, pattern. cbn [rx_find]. rewrite (compile_elems (EBol :: es ++ [EEol])).
  2:{ cbn [forallb elem_ok andb]. rewrite forallb_app, H1. reflexivity. }
  assert (R : row (map elem_re (EBol :: es ++ [EEol])) = RCat RBol (row (map elem_re es ++ [REol]))).
  { cbn [map elem_re]. rewrite map_app. cbn [map elem_re]. destruct es; reflexivity. }
  rewrite R. split.
  - destruct (search _ t) as [[m c]|] eqn:S; [|discriminate]. intros _. apply bol_some in S as (i' & s' & A & _).
    apply (M_elems es [REol] _ _ _ _ _ _ H2) in A as (w & s1 & -> & Sp & B). cbn [row] in B. apply M_eol_iff in B as (E & _). eauto.
  - intros (w & e & -> & Sp & E). destruct (search _ (w ++ e)) as [[m c]|] eqn:S; [reflexivity|]. exfalso.
    apply (search_none _ _ S [] (w ++ e) (length w) e [] eq_refl). cbn [length]. econstructor; [constructor|].
    apply (M_elems es [REol] _ _ _ _ _ _ H2). exists w, e. split; [reflexivity|]. split; [exact Sp|]. cbn [row Nat.add]. apply M_eol_iff. auto.
Qed.
