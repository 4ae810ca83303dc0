(** The way a greedy expression prefers: if what follows succeeds there, this is the match. *)
From Coq Require Import Ascii String Arith NArith ZArith Bool List Lia.
From Verif Require Import PyStr PyStrFacts PyBase SearchModel PyRe PyReFacts PyReTmpl PyReSent PyReLazy.
Import ListNotations.
Local Open Scope char_scope.

Definition gets (r : re) (i : nat) (s : str) (c : caps) (i' : nat) (s' : str) (c' : caps) : Prop :=
  forall R (k : nat -> str -> caps -> option R) x, k i' s' c' = Some x -> mat r i s c k = Some x.

Lemma gets_eps i s c : gets REps i s c i s c.
Proof. intros R k x K. exact K. Qed.
Lemma gets_cat a b i s c i1 s1 c1 i2 s2 c2 : gets a i s c i1 s1 c1 -> gets b i1 s1 c1 i2 s2 c2 -> gets (RCat a b) i s c i2 s2 c2.
Proof. intros A B R k x K. rewrite mat_cat. apply A. now apply B. Qed.
Lemma gets_grp n a i w s c i' c' : i' = i + length w -> gets a i (w ++ s) c i' s c' -> gets (RGrp n a) i (w ++ s) c i' s ((n, w) :: c').
Proof. intros -> A R k x K. rewrite mat_grp. apply A. now rewrite firstn_len. Qed.
Lemma gets_star q i w s c : all_in q w -> PyReTmpl.stops q s -> gets (RStar true (RSet q)) i (w ++ s) c (i + length w) s c.
Proof. intros A B R k x K. now apply star_longest. Qed.
Lemma gets_plus q i w s c : w <> [] -> all_in q w -> PyReTmpl.stops q s -> gets (rplus true (RSet q)) i (w ++ s) c (i + length w) s c.
Proof. intros N0 A B R k x K. now apply plus_longest. Qed.
Lemma gets_set q i y s c : in_set q y = true -> gets (RSet q) i (y :: s) c (S i) s c.
Proof. intros A R k x K. now rewrite set_step. Qed.
Lemma gets_opt a i s c i' s' c' : gets a i s c i' s' c' -> gets (ropt true a) i s c i' s' c'.
Proof. intros A R k x K. unfold ropt. rewrite mat_alt. now rewrite (A R k x K). Qed.
Lemma gets_skip a i s c : (forall i' s' c', ~ M a i s c i' s' c') -> gets (ropt true a) i s c i s c.
Proof. intros A R k x K. unfold ropt. rewrite mat_alt. rewrite mat_none by assumption. exact K. Qed.
Lemma gets_left a b i s c i' s' c' : gets a i s c i' s' c' -> gets (RAlt a b) i s c i' s' c'.
Proof. intros A R k x K. rewrite mat_alt. now rewrite (A R k x K). Qed.
Lemma gets_right a b i s c i' s' c' : (forall i' s' c', ~ M a i s c i' s' c') -> gets b i s c i' s' c' -> gets (RAlt a b) i s c i' s' c'.
Proof. intros A B R k x K. rewrite mat_alt, mat_none by assumption. now apply B. Qed.
Lemma gets_eol i c : gets REol i [] c i [] c.
Proof. intros R k x K. exact K. Qed.

Lemma no_plus n q i s c i' s' c' : PyReTmpl.stops q s -> ~ M (RGrp n (rplus true (RSet q))) i s c i' s' c'.
Proof.
  intros St HM. apply M_grp_iff in HM as (v & c2 & -> & _ & _ & HM). apply M_plus_iff in HM as (v' & E' & NV & V & _). apply app_inv_tail in E' as <-.
  inversion V as [|y v0 Y V0]; subst; [congruence|]. cbn in St. unfold PyReTmpl.stops in St. congruence.
Qed.
Lemma no_set n q i s c i' s' c' : PyReTmpl.stops q s -> ~ M (RGrp n (RSet q)) i s c i' s' c'.
Proof.
  intros St HM. apply M_grp_iff in HM as (v & c2 & -> & _ & _ & HM). apply M_set_iff in HM as (y & E & Y & _). rewrite E in St. cbn in St. unfold PyReTmpl.stops in St. congruence.
Qed.
(** An optional group around a run of characters, and around one character. *)
Lemma gets_run n q i w s c : w <> [] -> all_in q w -> PyReTmpl.stops q s -> gets (ropt true (RGrp n (rplus true (RSet q)))) i (w ++ s) c (i + length w) s ((n, w) :: c).
Proof. intros. now apply gets_opt, gets_grp, gets_plus. Qed.
Lemma gets_no_run n q i s c : PyReTmpl.stops q s -> gets (ropt true (RGrp n (rplus true (RSet q)))) i s c i s c.
Proof. intros St. apply gets_skip. intros i' s' c'. now apply no_plus. Qed.
Lemma gets_one n q i y s c : in_set q y = true -> gets (ropt true (RGrp n (RSet q))) i (y :: s) c (S i) s ((n, [y]) :: c).
Proof. intros Y. apply gets_opt. change (y :: s) with ([y] ++ s). apply gets_grp; [cbn; lia|]. now apply gets_set. Qed.
Lemma gets_no_one n q i s c : PyReTmpl.stops q s -> gets (ropt true (RGrp n (RSet q))) i s c i s c.
Proof. intros St. apply gets_skip. intros i' s' c'. now apply no_set. Qed.

Lemma gets_match r i s i' s' c : gets r i s [] i' s' c -> match_at r i s = Some (firstn (i' - i) s, c).
Proof. intros G0. unfold match_at. now apply G0. Qed.
Lemma gets_found p r n t i s c : reads_re p r n -> gets r 0 t [] i s c -> exists m, rx_find (pattern false p) t = Some m /\ m_groups m = map (fun j => cap j c) (seq 1 n).
Proof. intros HR G0. apply gets_match in G0. eexists. split; [exact (re_found _ _ _ _ _ _ HR G0)|reflexivity]. Qed.
