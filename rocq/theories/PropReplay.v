(** Property C70: no session is accepted twice (injective agreement).  [believes_2], [believes_3]
    and [believes_4] say who accepted a message, and what is assumed of the cryptography; see
    Replay.v and Active.v. *)
From Verif Require Import Monad Api Common Msg1 Msg2 Msg3 Msg4 Rfc Uses Wire Conform Received Sessions
  Active Replay ReplayProofs Demo DemoX DemoA DemoD.

(** Two pairs of demonstration parties; each party accepts what its peer sends. *)
Example two_cases : let E := demo_env knobs_kid in let x := demo_trips knobs_kid 2 in
  let i := [initiator_session E x; initiator_session E second] in
  let r := [responder_session E x; responder_session E second] in
  Forall (believes_2 (holders E x second 1 2 3 4)) i /\
  Forall (believes_3 (one_of_four E x second)) r /\
  Forall (believes_4 (one_of_four E x second)) i /\
  ForallOrdPairs fresh_1 i /\ ForallOrdPairs fresh_2 r.
Proof. exact two_demo. Qed.

(** ** C70 *)
(** Initiators with fresh ephemeral keys that accepted a message 2 did so with as many distinct
    sessions of holders of the verified keys, one each, that agree with them. *)
Theorem C70_message_2 : forall (owner : bytes -> session -> Prop) l,
  Forall (believes_2 owner) l -> ForallOrdPairs fresh_1 l ->
  exists qs, NoDup qs /\ Forall2 (fun p q => (exists pub, owner pub q) /\ answers q /\ se_m1 q = se_m1 p /\
    same_start (se p) (se q) /\ same_answer (se p) (se q)) l qs.
Proof. exact distinct_2. Qed.
Print Assumptions C70_message_2.
(** Responders with fresh ephemeral keys that accepted a message 3 did so with as many distinct
    sessions of honest initiators. *)
Theorem C70_message_3 : forall (peer : session -> Prop) l,
  Forall (believes_3 peer) l -> ForallOrdPairs fresh_2 l ->
  exists qs, NoDup qs /\ Forall2 (fun p q => peer q /\ confirms q /\ se_m1 q = se_m1 p /\
    same_session (se q) (se p)) l qs.
Proof. exact distinct_3. Qed.
Print Assumptions C70_message_3.
(** Initiators with fresh ephemeral keys that accepted a message 4 did so with as many distinct
    sessions of honest responders that completed. *)
Theorem C70_message_4 : forall (peer : session -> Prop) l,
  Forall (believes_4 peer) l -> ForallOrdPairs fresh_1 l ->
  exists qs, NoDup qs /\ Forall2 (fun p q => peer q /\ closes q /\ se_m1 q = se_m1 p /\
    same_session (se p) (se q)) l qs.
Proof. exact distinct_4. Qed.
Print Assumptions C70_message_4.
