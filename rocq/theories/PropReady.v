(** Property C63: two parties that are able and willing to complete a handshake do so.
    [do_api a] runs one call of include/edhoc.h (History.v); what the parties, their
    applications and crypto libraries provide is in Ready.v. *)
From Verif Require Import Monad Api History Spec Rfc Uses Received Sessions Safety Ready ReadyProofs Demo DemoR.

(** ** C63: willing parties complete the handshake *)
(** With buffers of 64 KiB, all six calls succeed and the parties hold the same TH_4 and
    PRK_4e3m.  Missing: hash algorithms and EAD labels of more than 16 bits, below. *)
Theorem C63_completion_partial : forall (EI ER : env) wi wr s me_i me_r n1 n2 n3,
  cooperative EI ER wi wr s me_i me_r -> 65536 <= n1 -> 65536 <= n2 -> 65536 <= n3 ->
  exists wi' wr', handshake EI ER wi wr n1 n2 n3 wi' wr' /\ established wi' wr'.
Proof. exact cooperative_complete. Qed.
Print Assumptions C63_completion_partial.
(** Two parties with key identifiers and EAD, in each of the four methods. *)
Example C63_example : forall method, 0 <= method <= 3 ->
  cooperative env_i env_r (ready_i method) (ready_r method) suite2 (party_creds 1) (party_creds 2).
Proof. exact ready_pair. Qed.
(** A willing party identified by the hash of its certificate, with an algorithm of COSE's
    private-use range, cannot compose message_2. *)
Theorem C63_wide_algorithm_refuted :
  exists (E : env) p valid s me sk pk peer pkp room w id b w',
    limits /\ abides /\ careful_world w /\ bound (w_ctx w) /\
    willing p valid s me sk pk peer pkp room /\ correct p /\ sized p s /\ modest s /\
    travels me (idcred_item (X5tNum (-70000) id)) /\ c_status (w_ctx w) = SM_RECEIVED_M1 /\
    do_api (AM2Compose true 65536) w = Ret (E_CBOR, OBytes b) w'.
Proof.
  exists env_wide, toy2, toy_valid, suite2, wide_creds, (lt_of 2), (lk 2), (party_creds 1), (lk 1), 8, wide_r.
  do 3 eexists. destruct wide_ready as (A & B & C & D & F).
  split; [exact A|]. split; [exact B|]. split; [exact C|]. split; [exact D|]. split; [exact F|].
  split; [exact toy2_correct|]. split; [exact toy2_sized|]. split; [exact suite2_modest|]. split; [exact wide_travels|].
  split; vm_compute; reflexivity.
Qed.
Print Assumptions C63_wide_algorithm_refuted.
