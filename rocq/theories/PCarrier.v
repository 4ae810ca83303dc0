(** C93: the carrier delay of an interface. *)
From Coq Require Import Ascii String Arith NArith ZArith Bool List Lia.
From Verif Require Import PyStr PyStrFacts PyBase SearchModel IntfSpec IntfFacts PyRe PyReFacts PyReTmpl PyReSent IosSpec IosModel IosFacts PIos CarrierModel.
Import ListNotations.
Local Open Scope Z_scope.

Lemma answers_nonneg ws vs lines n : answers (number_cmd ws vs) lines 0 (Ok n) -> 0 <= n.
Proof.
  intros [(? & t & ? & v & _ & _ & (d & Nd & _) & E)|[_ E]]; injection E as ->; [|lia].
  exact (proj1 Nd).
Qed.

(** The line "carrier-delay N" comes before "carrier-delay msec N" wherever it stands, unless its
    number is 0; of two lines of one kind the first one counts.  Nothing raises. *)
Theorem C93_delay : forall own below, let lines := own :: below in exists s m,
  answers (number_cmd ["carrier-delay"]%string []%string) lines 0 (Ok s) /\
  answers (number_cmd ["carrier-delay"; "msec"]%string []%string) lines 0 (Ok m) /\
  (s <> 0 -> manual_carrierdelay own below = Ok (1000 * s)) /\
  (s = 0 -> manual_carrierdelay own below = Ok m) /\
  has_manual_carrierdelay own below = Ok (negb (s =? 0) || negb (m =? 0)).
Proof.
  intros own below lines.
  assert (A : answers (number_cmd ["carrier-delay"]%string []%string) lines 0 (cd_seconds own below)).
  { apply (number_answers _ false Strict (map lit ["carrier-delay"]%string) []); reflexivity. }
  assert (B : answers (number_cmd ["carrier-delay"; "msec"]%string []%string) lines 0 (cd_msec own below)).
  { apply (number_answers _ false Strict (map lit ["carrier-delay"; "msec"]%string) []); reflexivity. }
  destruct (answers_ok _ _ _ _ A) as (s & E). destruct (answers_ok _ _ _ _ B) as (m & F). rewrite E in A. rewrite F in B.
  exists s, m. split; [exact A|]. split; [exact B|]. pose proof (answers_nonneg _ _ _ _ A). pose proof (answers_nonneg _ _ _ _ B).
  unfold has_manual_carrierdelay, is_set, manual_carrierdelay. rewrite E, F. cbn [bind].
  destruct (Z.ltb_spec 0 s); destruct (Z.ltb_spec 0 m); destruct (Z.eqb_spec s 0); destruct (Z.eqb_spec m 0); try lia; cbn [negb orb];
    (split; [intros; f_equal; lia|split; [intros; f_equal; lia|f_equal; apply negb_true_iff, Z.eqb_neq || apply negb_false_iff, Z.eqb_eq; lia]]).
Qed.
Print Assumptions C93_delay.

Definition cd_own : str := lit "interface GigabitEthernet0/1".
Example C93_ex :
  manual_carrierdelay cd_own (map lit [" mtu 1500"; " carrier-delay msec 250"]%string) = Ok 250 /\
  manual_carrierdelay cd_own (map lit [" carrier-delay 3"; " carrier-delay 7"]%string) = Ok 3000 /\
  manual_carrierdelay cd_own (map lit [" carrier-delay 0"; " carrier-delay msec 5"]%string) = Ok 5 /\
  has_manual_carrierdelay cd_own (map lit [" carrier-delay msec 250"]%string) = Ok true /\
  has_manual_carrierdelay cd_own (map lit [" mtu 1500"]%string) = Ok false.
Proof. vm_compute. repeat split; reflexivity. Qed.

(** A carrier delay configured as 0 counts as none, and the other forms of the command ("up", "down")
    are not seen. *)
Theorem C93_configured_refuted :
  (exists t, says [lit "carrier-delay"; lit "0"] t /\ has_manual_carrierdelay cd_own [t] = Ok false) /\
  (exists t, says [lit "carrier-delay"; lit "down"; lit "5"] t /\ has_manual_carrierdelay cd_own [t] = Ok false).
Proof.
  split.
  - exists (lit " carrier-delay 0"). split; [|vm_compute; reflexivity]. exists (lit " "), (lit "carrier-delay 0"), []. repeat split; [|now left].
    change (lit "carrier-delay 0") with (lit "carrier-delay" ++ lit " " ++ lit "0"). repeat (constructor; [now split|]). constructor.
  - exists (lit " carrier-delay down 5"). split; [|vm_compute; reflexivity]. exists (lit " "), (lit "carrier-delay down 5"), []. repeat split; [|now left].
    change (lit "carrier-delay down 5") with (lit "carrier-delay" ++ lit " " ++ lit "down" ++ lit " " ++ lit "5"). repeat (constructor; [now split|]). constructor.
Qed.
Print Assumptions C93_configured_refuted.
