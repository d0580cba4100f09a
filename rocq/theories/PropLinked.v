(** Property C65: a party that uses a ready-made cipher suite through the crypto callbacks.  [linked], [deployed],
    [initiator_run], [responder_run] and [afterwards] are specified in Linked.v, [obeys] and [apart] in Sessions.v. *)
From Verif Require Import Monad Api Common Msg1 Msg2 Msg3 Msg4 Exporter History Spec Rfc Uses Conform Sessions Demo DemoX.
From Verif Require Import Psa SuiteX SuiteW SuiteCalls SuiteSpec Linked LinkedRuns DemoK.

(** ** C65: the ready-made suites meet the contract of the handshake *)
(** Every answer the library gets from the suite is that of the primitives, for the key it imported itself or the
    long-term key of the party; and the suite never hands out a long-term key's handle. *)
Theorem C65_initiator_contract : forall (E : env) S p mine a m1 m2 m3, shipped S -> uses E S p mine -> my_suite (s0 a) = table S ->
  is_message m2 -> initiator_run a m1 m2 m3 ->
  obeys p (keys_of mine) (ev1 a) /\ obeys p (keys_of mine) (ev2 a) /\ obeys p (keys_of mine) (ev3 a) /\
  apart (ev1 a) /\ apart (ev2 a) /\ apart (ev3 a).
Proof. exact initiator_contract. Qed.
Print Assumptions C65_initiator_contract.
Theorem C65_responder_contract : forall (E : env) S p mine b m1 m2 m3, shipped S -> uses E S p mine -> my_suite (s0 b) = table S ->
  is_message m2 -> responder_run b m1 m2 m3 ->
  obeys p (keys_of mine) (ev1 b) /\ obeys p (keys_of mine) (ev2 b) /\ obeys p (keys_of mine) (ev3 b) /\
  apart (ev1 b) /\ apart (ev2 b) /\ apart (ev3 b).
Proof. exact responder_contract. Qed.
Print Assumptions C65_responder_contract.
(** Signatures are made with the long-term key, and accepted only if valid under the key the library imported. *)
Theorem C65_signatures : forall (E : env) (L : libs) S mine h st a m1 m2 m3, shipped S -> device L -> linked E L S mine h st ->
  my_suite (s0 a) = table S -> is_message m2 -> initiator_run a m1 m2 m3 \/ responder_run a m1 m2 m3 ->
  signs L S mine (ev1 a) /\ signs L S mine (ev2 a) /\ signs L S mine (ev3 a).
Proof. exact party_signs. Qed.
Print Assumptions C65_signatures.

(** Two parties over the same ready-made suite that complete the handshake are an honest exchange, *)
Theorem C65_exchange : forall EI ER S p mine_i mine_r a b m1 m2 m3, deployed EI ER S p mine_i mine_r a b m1 m2 m3 ->
  exchange EI ER p (keys_of mine_i) (keys_of mine_r) a b m1 m2 m3.
Proof. exact deployed_exchange. Qed.
Print Assumptions C65_exchange.
(** so they hold the same secrets, *)
Theorem C65_same_secrets : forall EI ER S p mine_i mine_r a b m1 m2 m3, deployed EI ER S p mine_i mine_r a b m1 m2 m3 ->
  c_status (s3 a) = SM_COMPLETED /\ c_status (s3 b) = SM_COMPLETED /\
  c_th_state (s3 a) = TH_4 /\ c_th_state (s3 b) = TH_4 /\ th_of (s3 a) = th_of (s3 b) /\
  c_prk_state (s3 a) = PRK_4E3M /\ c_prk_state (s3 b) = PRK_4E3M /\ prk_of (s3 a) = prk_of (s3 b).
Proof. exact deployed_secrets. Qed.
Print Assumptions C65_same_secrets.
(** and in any later histories, exports after the same key updates agree, *)
Theorem C65_same_exports : forall EI ER S p mine_i mine_r a b m1 m2 m3, deployed EI ER S p mine_i mine_r a b m1 m2 m3 ->
  forall ra ea ra1 x ra2 rb eb rb1 y rb2 label n sa sb,
  @afterwards EI a ra ea -> expands_ok ea -> ra = ra1 ++ x :: ra2 ->
  @afterwards ER b rb eb -> expands_ok eb -> rb = rb1 ++ y :: rb2 ->
  entropies ra1 = entropies rb1 -> 0 <= n < 2 ^ 32 ->
  export_of x label n sa -> export_of y label n sb -> sa = sb.
Proof. exact deployed_exports. Qed.
Print Assumptions C65_same_exports.
(** as do OSCORE contexts, with mirrored identifiers. *)
Theorem C65_oscore : forall EI ER S p mine_i mine_r a b m1 m2 m3, deployed EI ER S p mine_i mine_r a b m1 m2 m3 ->
  forall ra ea ra1 x ra2 rb eb rb1 y rb2 n1 n2 sa ta ia ja sb tb ib jb,
  @afterwards EI a ra ea -> expands_ok ea -> ra = ra1 ++ x :: ra2 ->
  @afterwards ER b rb eb -> expands_ok eb -> rb = rb1 ++ y :: rb2 ->
  entropies ra1 = entropies rb1 -> 0 <= n1 < 2 ^ 32 -> 0 <= n2 < 2 ^ 32 ->
  oscore_of x n1 n2 sa ta ia ja -> oscore_of y n1 n2 sb tb ib jb -> sa = sb /\ ta = tb /\ ia = jb /\ ja = ib.
Proof. exact deployed_oscore. Qed.
Print Assumptions C65_oscore.

(** Parties over suite 0 with static Diffie-Hellman keys, suite 4 with signature keys, and suite 2 with static
    Diffie-Hellman keys. *)
Example C65_deployed : deployed_rows (SX suite_0) KT_KEY_AGREEMENT 3 /\ deployed_rows (SX suite_4) KT_SIGNATURE 0 /\
  deployed_rows (SW suite_2) KT_KEY_AGREEMENT 3.
Proof.
  assert (K : forall S kt, 1 <= kt <= 7 -> kept S kt /\ kt <> KT_MAKE_KEY_PAIR) by (intros; split; [now left|unfold KT_MAKE_KEY_PAIR; lia]).
  split; [|split]; apply rows_deployed; try (apply K; cbv; split; discriminate).
  - cbv; tauto.
  - vm_compute; reflexivity.
  - vm_compute; reflexivity.
  - vm_cast_no_check (eq_refl true).
  - cbv; tauto.
  - vm_compute; reflexivity.
  - vm_compute; reflexivity.
  - vm_cast_no_check (eq_refl true).
  - cbv; tauto.
  - vm_compute; reflexivity.
  - vm_compute; reflexivity.
  - vm_cast_no_check (eq_refl true).
Qed.
(** Their sessions export after a key update; the last answers are OSCORE contexts. *)
Definition linked_pair : pair_of_trips := rows (SX suite_0) KT_KEY_AGREEMENT 3.
Definition linked_i := rows_after (party_env (device_of (SX suite_0) KT_KEY_AGREEMENT 1)) (pt_i linked_pair) DemoX.later_i.
Definition linked_r := rows_after (party_env (device_of (SX suite_0) KT_KEY_AGREEMENT 2)) (pt_r linked_pair) DemoX.later_r.
Definition nth_answer (rs : list result) (i : nat) : result := nth i rs (AInit, (1, ONone)).
Example C65_later :
  @afterwards (party_env (device_of (SX suite_0) KT_KEY_AGREEMENT 1)) (pt_i linked_pair) (fst linked_i) (snd linked_i) /\
  @afterwards (party_env (device_of (SX suite_0) KT_KEY_AGREEMENT 2)) (pt_r linked_pair) (fst linked_r) (snd linked_r) /\
  expands_ok (snd linked_i) /\ expands_ok (snd linked_r) /\
  entropies (firstn 3 (fst linked_i)) = [[7; 8]] /\ entropies (firstn 1 (fst linked_r)) = [[7; 8]] /\
  (exists s, export_of (nth_answer (fst linked_i) 3) 40000 16 s) /\ (exists s, export_of (nth_answer (fst linked_r) 1) 40000 16 s) /\
  (exists a b c d, oscore_of (nth_answer (fst linked_i) 4) 16 8 a b c d) /\
  (exists a b c d, oscore_of (nth_answer (fst linked_r) 2) 16 8 a b c d).
Proof.
  split; [apply rows_afterwards; [reflexivity|vm_cast_no_check (eq_refl true)]|].
  split; [apply rows_afterwards; [reflexivity|vm_cast_no_check (eq_refl true)]|].
  split; [apply expands_check; vm_cast_no_check (eq_refl true)|]. split; [apply expands_check; vm_cast_no_check (eq_refl true)|].
  split; [vm_compute; reflexivity|]. split; [vm_compute; reflexivity|].
  split; [eexists; exists true; vm_compute; reflexivity|]. split; [eexists; exists true; vm_compute; reflexivity|].
  split; do 4 eexists; exists true, 64, 64; vm_compute; reflexivity.
Qed.
