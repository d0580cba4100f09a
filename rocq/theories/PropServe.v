(** Property C64: what an established session is good for.  [do_api a] runs one call of
    include/edhoc.h (History.v); [cooperative] and [handshake] are in Ready.v, the requests in
    Serve.v. *)
From Verif Require Import Monad Api History Spec Rfc Uses Received Sessions Safety Ready Serve ServeProofs Demo DemoR.

(** ** C64: willing parties get the same keys after the handshake *)
(** There is one family of keys such that, whatever sequences of requests the two applications
    make, each request succeeds and gives the key of the family; with or without message_4. *)
Theorem C64_service : forall (EI ER : env) wi wr s me_i me_r n1 n2 n3,
  cooperative EI ER wi wr s me_i me_r -> 65536 <= n1 -> 65536 <= n2 -> 65536 <= n3 ->
  let ci := cid_rfc (c_cid (w_ctx wi)) in let cr := cid_rfc (c_cid (w_ctx wr)) in
  exists wi' wr' key, handshake EI ER wi wr n1 n2 n3 wi' wr' /\
    (forall past label n, 0 < n -> zlen (key past label n) = n) /\
    in_service EI ER s key ci cr wi' wr' /\
    (0 < cs_tag s -> forall n4, 65536 <= n4 -> exists wi4 wr4,
      message_4 EI ER wi' wr' n4 wi4 wr4 /\ in_service EI ER s key ci cr wi4 wr4).
Proof. exact cooperative_serves. Qed.
Print Assumptions C64_service.
(** Two willing parties, and requests with two OSCORE contexts and an update between them. *)
Definition some_asks : list ask :=
  [AskKey 32768 16; AskOscore 16 8 7 7; AskKey 65535 255; AskUpdate [1; 2; 3]; AskKey 1 8; AskOscore 16 8 7 7].
Example C64_example : forall method, 0 <= method <= 3 ->
  cooperative env_i env_r (ready_i method) (ready_r method) suite2 (party_creds 1) (party_creds 2) /\
  fair suite2 (cid_rfc (c_cid (w_ctx (ready_i method)))) (cid_rfc (c_cid (w_ctx (ready_r method)))) true some_asks /\
  0 < cs_tag suite2.
Proof.
  intros method H. split; [exact (ready_pair method H)|]. split; [|reflexivity].
  cbn [fair some_asks]. unfold label_ok, length_ok. repeat split; first [left; reflexivity | right; left; reflexivity | right; right; split; vm_compute; discriminate | vm_compute; reflexivity | vm_compute; discriminate].
Qed.
