(** Facts about the dictionaries and about paths. *)
From Coq Require Import Ascii String Arith NArith ZArith Bool List Lia Sorting.Sorted Permutation.
From Verif Require Import PyStr PyStrFacts PyBase PyBaseFacts CfgModel MutModel TreeSpec TreeProofs TreePost TreeRel TreeWorld BraceSpec TreeFull WorldSpec CommitMain TreeMain DiffModel DiffSpec DiffFacts.
Import ListNotations.
Local Open Scope nat_scope.

(** ** Rendering *)
Lemma dicts_before_spec hash w f xs : (forall x, In x xs -> (f x = Keep \/ f x = Remove) /\ exists d, as_diff_dict hash w true (-1) (f x) x = Ok d) ->
  exists ds, dicts_before hash w f xs = Ok ds /\ Forall2 (fun x d => as_diff_dict hash w true (-1) (f x) x = Ok d) xs ds.
Proof.
  induction xs as [|x xs IH]; intros H; [exists []; split; [reflexivity|constructor]|].
  destruct (H x (or_introl eq_refl)) as [W (d & Ed)]. destruct IH as (ds & E & F); [intros y Hy; apply H; now right|].
  exists (d :: ds). split; [|now constructor]. cbn [dicts_before]. destruct W as [W|W]; rewrite W in *; rewrite Ed; cbn [bind]; rewrite E; reflexivity.
Qed.
Definition rendered (w : world) (f : words_of) (x : nat) : bool :=
  match f x, children_of w x with Unchanged, [] => false | _, _ => true end.
Lemma dicts_after_spec hash w f xs : (forall x, In x xs -> (f x = Unchanged \/ f x = Add) /\ exists d, as_diff_dict hash w false (linenum_of w x) (f x) x = Ok d) ->
  exists ds, dicts_after hash w f xs = Ok ds /\ Forall2 (fun x d => as_diff_dict hash w false (linenum_of w x) (f x) x = Ok d) (filter (rendered w f) xs) ds.
Proof.
  induction xs as [|x xs IH]; intros H; [exists []; split; [reflexivity|constructor]|].
  destruct (H x (or_introl eq_refl)) as [W (d & Ed)]. destruct IH as (ds & E & F); [intros y Hy; apply H; now right|].
  cbn [dicts_after filter]. unfold rendered at 1. destruct W as [W|W]; rewrite W in *.
  - destruct (children_of w x); [now exists ds|]. rewrite Ed. cbn [bind]. rewrite E. cbn [bind]. eexists. split; [reflexivity|]. constructor; [now rewrite W|exact F].
  - rewrite Ed. cbn [bind]. rewrite E. cbn [bind]. exists (d :: ds). destruct (children_of w x); (split; [reflexivity|]); constructor; auto; now rewrite W.
Qed.

Lemma dict_fields hash w before n u x d : as_diff_dict hash w before n u x = Ok d -> forall ids, diff_id_list hash w x = Ok ids ->
  d_before d = before /\ d_word d = u /\ d_ids d = ids /\ d_text d = text_of w x /\ d_linenum d = n /\ d_indent d = indent_of w x /\
  exists ps, all_parents w x = Ok ps /\ d_parents d = map (text_of w) ps.
Proof.
  intros H ids Hi. unfold as_diff_dict in H. destruct (all_parents w x) as [ps|e]; [|discriminate]. cbn [bind] in H. rewrite Hi in H. cbn [bind] in H.
  injection H as <-. repeat split. now exists ps.
Qed.
Lemma dict_exists hash w before n u x g : geneology w x = Ok g -> exists d, as_diff_dict hash w before n u x = Ok d.
Proof.
  intros H. unfold as_diff_dict, diff_id_list. rewrite H. unfold geneology in H. destruct (all_parents w x) as [ps|e]; [|discriminate]. cbn [bind]. eauto.
Qed.
Lemma ids_rev hash w x g : geneology w x = Ok g -> diff_id_list hash w x = Ok (rev (map (line_id hash w) g)).
Proof.
  intros H. unfold diff_id_list. rewrite H. cbn [bind]. f_equal.
  assert (K : forall l acc, fold_left (fun acc y => line_id hash w y :: acc) l acc = rev (map (line_id hash w) l) ++ acc).
  { induction l as [|y l IH]; intros acc; [reflexivity|]. cbn [fold_left map rev]. rewrite IH, <- app_assoc. reflexivity. }
  now rewrite K, app_nil_r.
Qed.

(** ** Compression *)
Fixpoint keptd (keys : list (list Z)) (todo : list ddict) : list ddict :=
  match todo with
  | [] => []
  | d :: todo' => if seen (d_ids d) keys then keptd keys todo' else d :: keptd (d_ids d :: keys) todo'
  end.
Definition valid_d (d : ddict) : Prop :=
  match d_before d, d_word d with true, Keep | true, Remove | false, Unchanged | false, Add => True | _, _ => False end.
Definition not_add (d : ddict) : bool := match d_word d with Add => false | _ => true end.

Lemma seen_in ids keys : seen ids keys = true <-> In ids keys.
Proof.
  unfold seen. rewrite existsb_exists. split.
  - intros (k & I & E). destruct (list_eq_dec Z.eq_dec k ids) as [<-|]; [exact I|discriminate].
  - intros I. exists ids. split; [exact I|]. now destruct (list_eq_dec Z.eq_dec ids ids).
Qed.
Lemma place_perm d l : Permutation (place d l) (l ++ [d]).
Proof.
  induction l as [|t l IH]; cbn [place app]; [reflexivity|]. destruct (below t d).
  - apply perm_skip. apply Permutation_cons_append.
  - now apply perm_skip.
Qed.
Lemma place_filter d l : not_add d = false -> filter not_add (place d l) = filter not_add l.
Proof.
  intros H. induction l as [|t l IH]; cbn [place filter]; [now rewrite H|]. destruct (below t d); cbn [filter]; rewrite ?H, ?IH; reflexivity.
Qed.
Lemma compress_spec : forall todo out keys, Forall valid_d todo -> exists out', compress out keys todo = Ok out' /\
  Permutation out' (out ++ keptd keys todo) /\ filter not_add out' = filter not_add out ++ filter not_add (keptd keys todo).
Proof.
  induction todo as [|d todo IH]; intros out keys V; [exists out; cbn [keptd filter]; rewrite !app_nil_r; now repeat split|].
  inversion V as [|? ? Vd Vt]; subst. cbn [compress keptd]. destruct (seen (d_ids d) keys); [now apply IH|]. unfold valid_d in Vd.
  assert (App : not_add d = true -> exists out', compress (out ++ [d]) (d_ids d :: keys) todo = Ok out' /\ Permutation out' (out ++ d :: keptd (d_ids d :: keys) todo) /\
     filter not_add out' = filter not_add out ++ filter not_add (d :: keptd (d_ids d :: keys) todo)).
  { intros N. destruct (IH (out ++ [d]) (d_ids d :: keys) Vt) as (out' & E & P & F). exists out'. split; [exact E|]. split; [now rewrite P, <- app_assoc|].
    rewrite F, filter_app, <- app_assoc. cbn [filter]. rewrite N. reflexivity. }
  destruct (d_before d), (d_word d) eqn:W; try contradiction; try (apply App; unfold not_add; now rewrite W).
  assert (N : not_add d = false) by (unfold not_add; now rewrite W).
  destruct (IH (place d out) (d_ids d :: keys) Vt) as (out' & E & P & F). exists out'. split; [exact E|]. split.
  - rewrite P, place_perm, <- app_assoc. reflexivity.
  - rewrite F, place_filter by exact N. cbn [filter]. now rewrite N.
Qed.

Lemma keptd_in d : forall todo keys, In d (keptd keys todo) <->
  exists pre post, todo = pre ++ d :: post /\ ~ In (d_ids d) keys /\ forall e, In e pre -> d_ids e <> d_ids d.
Proof.
  induction todo as [|t todo IH]; intros keys; cbn [keptd].
  - split; [intros []|]. intros ([|? ?] & post & E & _); discriminate.
  - destruct (seen (d_ids t) keys) eqn:Sn.
    + apply seen_in in Sn. rewrite IH. split.
      * intros (pre & post & -> & N & F). exists (t :: pre), post. repeat split; auto. intros e [<-|He]; [congruence|auto].
      * intros ([|p pre] & post & E & N & F); [injection E as -> ->; contradiction|]. injection E as -> ->. exists pre, post. repeat split; auto. intros e He. apply F. now right.
    + assert (~ In (d_ids t) keys) by (rewrite <- seen_in, Sn; discriminate). cbn [In]. rewrite IH. split.
      * intros [<-|(pre & post & -> & N & F)]; [exists [], todo; repeat split; auto; intros e []|].
        exists (t :: pre), post. repeat split; [intros K; apply N; now right|]. intros e [<-|He]; [|auto]. intros K. apply N. now left.
      * intros ([|p pre] & post & E & N & F); [injection E as -> ->; now left|]. injection E as -> ->. right. exists pre, post.
        split; [reflexivity|]. split; [|intros e He; apply F; now right]. intros [K|K]; [|contradiction]. apply (F p (or_introl eq_refl) K).
Qed.
Lemma keptd_nodup : forall todo keys, NoDup (map d_ids (keptd keys todo)).
Proof.
  induction todo as [|t todo IH]; intros keys; cbn [keptd]; [constructor|]. destruct (seen (d_ids t) keys); [apply IH|]. cbn [map]. constructor; [|apply IH].
  intros K. apply in_map_iff in K as (e & E & K). apply keptd_in in K as (pre & post & _ & N & _). apply N. left. congruence.
Qed.
Lemma keptd_exists ids : forall todo keys, ~ In ids keys -> (exists d, In d todo /\ d_ids d = ids) -> exists d, In d (keptd keys todo) /\ d_ids d = ids.
Proof.
  induction todo as [|t todo IH]; intros keys N (d & Hd & E); [destruct Hd|]. cbn [keptd]. destruct (seen (d_ids t) keys) eqn:Sn.
  - apply IH; [exact N|]. destruct Hd as [->|Hd]; [apply seen_in in Sn; congruence|eauto].
  - destruct (list_eq_dec Z.eq_dec (d_ids t) ids) as [K|K]; [exists t; split; [now left|exact K]|].
    destruct (IH (d_ids t :: keys)) as (e & He & Ee); [intros [?|?]; contradiction|destruct Hd as [->|Hd]; [contradiction|eauto]|].
    exists e. split; [now right|exact Ee].
Qed.
Lemma keptd_app a : forall keys c, (forall d, In d c -> exists e, In e a /\ d_ids e = d_ids d) -> keptd keys (a ++ c) = keptd keys a.
Proof.
  assert (Nil : forall c keys, (forall d, In d c -> In (d_ids d) keys) -> keptd keys c = []).
  { induction c as [|d c IH]; intros keys H; [reflexivity|]. cbn [keptd]. rewrite (proj2 (seen_in _ _)) by (apply H; now left). apply IH. intros e He. apply H. now right. }
  assert (Gen : forall a keys c, (forall d, In d c -> In (d_ids d) keys \/ exists e, In e a /\ d_ids e = d_ids d) -> keptd keys (a ++ c) = keptd keys a).
  { clear a. induction a as [|t a IH]; intros keys c H; cbn [app keptd].
    - apply Nil. intros d Hd. destruct (H d Hd) as [K|(e & [] & _)]. exact K.
    - destruct (seen (d_ids t) keys) eqn:Sn.
      + apply IH. intros d Hd. destruct (H d Hd) as [K|(e & [<-|He] & E)]; [now left|apply seen_in in Sn; left; congruence|right; eauto].
      + f_equal. apply IH. intros d Hd. destruct (H d Hd) as [K|(e & [<-|He] & E)]; [left; now right|left; left; exact E|right; eauto]. }
  intros keys c H. apply Gen. auto.
Qed.
