(** Properties of sessions under attack (C66-C68): the messages may come from anyone.  What is
    assumed of signatures, MACs, authenticated encryption and hashes is a premise; see Active.v. *)
From Verif Require Import Monad Api Common Msg1 Msg2 Msg3 Msg4 Rfc Uses Wire Conform Received Sessions
  Active ActiveProofs Demo DemoX DemoY DemoA.

(** The demonstration exchange meets the premises, with a static key on either side. *)
Example cases : forall m, In m [1; 2] ->
  premises (demo_env knobs_kid) (demo_trips knobs_kid m) m /\
  nothing_forged (demo_env knobs_kid) (demo_trips knobs_kid m) m 1 2.
Proof.
  intros m [<-|[<-|[]]]; [exact (attack_case _ _ demo_ok_1 attack_1)|exact (attack_case _ _ demo_ok_2 attack_2)].
Qed.

(** ** C66 *)
(** An initiator that authenticates the responder by signature and accepts a message 2: a session
    of the holder of the verified key answered exactly this message 1, works with the proposed
    method, suites and identifier (no downgrade), made the ephemeral key, and presented the
    credential that was accepted. *)
Theorem C66_signature : forall (E : env) a m1 m2 (owner : bytes -> session -> Prop),
  opened a m1 m2 -> responder_static (my_method (s0 a)) = false ->
  no_forged_signature owner (ev2 a) ->
  (forall pub q, owner pub q -> no_collision (ev1 a ++ ev2 a) q) ->
  exists pub q, owner pub q /\ answers q /\ se_m1 q = m1 /\ same_start a (se q) /\
    same_answer a (se q) /\ same_credential MSG_2 (ev2 (se q)) (ev2 a) pub /\
    (no_mac_collision MAC_2 (ev2 a) q -> same_responder_id a (se q)).
Proof. exact responder_signed. Qed.
Print Assumptions C66_signature.
Example C66_signature_case : let E := demo_env knobs_kid in let x := demo_trips knobs_kid 2 in
  let a := pt_i x in
  @opened E a (pt_m1 x) (pt_m2 x) /\ responder_static (my_method (s0 a)) = false /\
  no_forged_signature (holder E x 1 2) (ev2 a) /\
  (forall pub q, holder E x 1 2 pub q -> no_collision (ev1 a ++ ev2 a) q).
Proof.
  intros E x a. destruct (cases 2) as [P N]; [right; now left|]. destruct P as (P1 & P2 & P3 & P4 & P5 & P6 & P7 & P8 & P9 & P10 & P11 & _).
  destruct N as (N1 & _ & _ & _ & _ & _ & N7). split; [exact P1|]. split; [exact (f_equal responder_static P11)|]. split; [exact (N1 eq_refl)|].
  intros pub q [[_ Q]|[_ Q]]; [destruct (N7 q (or_introl Q)) as [H _]|destruct (N7 q (or_intror Q)) as [H _]]; exact H.
Qed.
(** The same when the responder authenticates with a static key: the MAC. *)
Theorem C66_mac : forall (E : env) a m1 m2 (owner : bytes -> session -> Prop),
  opened a m1 m2 -> responder_static (my_method (s0 a)) = true -> plain_ids (ev2 a) ->
  no_forged_mac owner MAC_2 (ev2 a) ->
  (forall pub q, owner pub q -> no_collision (ev1 a ++ ev2 a) q /\ plain_ids (ev2 (se q))) ->
  exists pub q, owner pub q /\ answers q /\ se_m1 q = m1 /\ same_start a (se q) /\
    same_answer a (se q) /\ same_responder_id a (se q) /\
    same_credential MSG_2 (ev2 (se q)) (ev2 a) pub.
Proof. exact responder_maced. Qed.
Print Assumptions C66_mac.
Example C66_mac_case : let E := demo_env knobs_kid in let x := demo_trips knobs_kid 1 in
  let a := pt_i x in
  @opened E a (pt_m1 x) (pt_m2 x) /\ responder_static (my_method (s0 a)) = true /\ plain_ids (ev2 a) /\
  no_forged_mac (holder E x 1 2) MAC_2 (ev2 a) /\
  (forall pub q, holder E x 1 2 pub q -> no_collision (ev1 a ++ ev2 a) q /\ plain_ids (ev2 (se q))).
Proof.
  intros E x a. destruct (cases 1) as [P N]; [now left|].
  destruct P as (P1 & P2 & P3 & P4 & P5 & P6 & P7 & P8 & P9 & P10 & P11 & P12 & P13 & P14 & _).
  destruct N as (_ & N2 & _ & _ & _ & _ & N7). split; [exact P1|]. split; [exact (f_equal responder_static P11)|]. split; [exact P13|]. split; [exact (N2 eq_refl)|].
  intros pub q [[_ Q]|[_ Q]]; [destruct (N7 q (or_introl Q)) as [H _]|destruct (N7 q (or_intror Q)) as [H _]]; (split; [exact H|]); rewrite Q; [exact P13|exact P14].
Qed.

(** ** C67 *)
(** A responder that accepts a message 3: an honest initiator started with exactly the message 1
    that was accepted and took part in the same session.  Whoever encrypted message 3... *)
Theorem C67_encryption : forall (E : env) b m1 m2 m3 (peer : session -> Prop),
  answered b m1 m2 -> accepts_3 b m3 -> contract (ev3 b) ->
  no_forged_ciphertext peer (ev3 b) -> (forall q, peer q -> no_collision (ev1 b ++ ev2 b) q) ->
  exists q, peer q /\ confirms q /\ se_m1 q = m1 /\ same_session (se q) b /\
    same_identifier (ev3 (se q)) (ev3 b) /\ same_ead MSG_3 (ev3 (se q)) b (ev3 b).
Proof. exact initiator_sealed. Qed.
Print Assumptions C67_encryption.
Example C67_encryption_case : let E := demo_env knobs_kid in let x := demo_trips knobs_kid 2 in
  let b := pt_r x in
  @answered E b (pt_m1 x) (pt_m2 x) /\ @accepts_3 E b (pt_m3 x) /\ contract (ev3 b) /\
  no_forged_ciphertext (both E x) (ev3 b) /\ (forall q, both E x q -> no_collision (ev1 b ++ ev2 b) q).
Proof.
  intros E x b. destruct (cases 2) as [P N]; [right; now left|]. destruct P as (P1 & P2 & P3 & P4 & P5 & P6 & P7 & P8 & _).
  destruct N as (_ & _ & _ & _ & N5 & _ & N7). split; [exact P6|]. split; [exact P7|]. split; [exact P8|]. split; [exact N5|].
  intros q Q. destruct (N7 q Q) as (_ & _ & H). exact H.
Qed.
(** ... and, by signature, the holder of the verified key, with the credential that was accepted. *)
Theorem C67_signature : forall (E : env) b m1 m2 m3 (owner : bytes -> session -> Prop),
  answered b m1 m2 -> accepts_3 b m3 -> contract (ev3 b) ->
  initiator_static (c_chosen_method (s1 b)) = false -> no_forged_signature owner (ev3 b) ->
  (forall pub q, owner pub q -> no_collision (ev1 b ++ ev2 b) q) ->
  exists pub q, owner pub q /\ confirms q /\ se_m1 q = m1 /\ same_session (se q) b /\
    same_credential MSG_3 (ev3 (se q)) (ev3 b) pub.
Proof. exact initiator_signed. Qed.
Print Assumptions C67_signature.
Example C67_signature_case : let E := demo_env knobs_kid in let x := demo_trips knobs_kid 1 in
  let b := pt_r x in
  @answered E b (pt_m1 x) (pt_m2 x) /\ @accepts_3 E b (pt_m3 x) /\ contract (ev3 b) /\
  initiator_static (c_chosen_method (s1 b)) = false /\ no_forged_signature (holder E x 1 2) (ev3 b) /\
  (forall pub q, holder E x 1 2 pub q -> no_collision (ev1 b ++ ev2 b) q).
Proof.
  intros E x b. destruct (cases 1) as [P N]; [now left|]. destruct P as (P1 & P2 & P3 & P4 & P5 & P6 & P7 & P8 & P9 & P10 & P11 & P12 & _).
  destruct N as (_ & _ & N3 & _ & _ & _ & N7). split; [exact P6|]. split; [exact P7|]. split; [exact P8|]. split; [exact (f_equal initiator_static P12)|]. split; [exact (N3 eq_refl)|].
  intros pub q [[_ Q]|[_ Q]]; [destruct (N7 q (or_introl Q)) as (_ & _ & H)|destruct (N7 q (or_intror Q)) as (_ & _ & H)]; exact H.
Qed.
Theorem C67_mac : forall (E : env) b m1 m2 m3 (owner : bytes -> session -> Prop),
  answered b m1 m2 -> accepts_3 b m3 -> contract (ev3 b) ->
  initiator_static (c_chosen_method (s1 b)) = true -> plain_ids (ev3 b) ->
  no_forged_mac owner MAC_3 (ev3 b) ->
  (forall pub q, owner pub q -> no_collision (ev1 b ++ ev2 b) q /\ plain_ids (ev3 (se q))) ->
  exists pub q, owner pub q /\ confirms q /\ se_m1 q = m1 /\ same_session (se q) b /\
    same_credential MSG_3 (ev3 (se q)) (ev3 b) pub.
Proof. exact initiator_maced. Qed.
Print Assumptions C67_mac.
Example C67_mac_case : let E := demo_env knobs_kid in let x := demo_trips knobs_kid 2 in
  let b := pt_r x in
  @answered E b (pt_m1 x) (pt_m2 x) /\ @accepts_3 E b (pt_m3 x) /\ contract (ev3 b) /\
  initiator_static (c_chosen_method (s1 b)) = true /\ plain_ids (ev3 b) /\
  no_forged_mac (holder E x 1 2) MAC_3 (ev3 b) /\
  (forall pub q, holder E x 1 2 pub q -> no_collision (ev1 b ++ ev2 b) q /\ plain_ids (ev3 (se q))).
Proof.
  intros E x b. destruct (cases 2) as [P N]; [right; now left|].
  destruct P as (P1 & P2 & P3 & P4 & P5 & P6 & P7 & P8 & P9 & P10 & P11 & P12 & P13 & P14 & P15 & P16).
  destruct N as (_ & _ & _ & N4 & _ & _ & N7). split; [exact P6|]. split; [exact P7|]. split; [exact P8|]. split; [exact (f_equal initiator_static P12)|]. split; [exact P16|].
  split; [exact (N4 eq_refl)|].
  intros pub q [[_ Q]|[_ Q]]; [destruct (N7 q (or_introl Q)) as (_ & _ & H)|destruct (N7 q (or_intror Q)) as (_ & _ & H)]; (split; [exact H|]); rewrite Q; [exact P15|exact P16].
Qed.

(** ** C68 *)
(** An initiator that accepts a message 4: a responder completed the same session with it, looked
    up the credential it sent, and the EAD items of message 4 are the ones that were sent. *)
Theorem C68_confirmation : forall (E : env) a m1 m2 m3 ev4 m4 (peer : session -> Prop),
  opened a m1 m2 -> sends_3 a m3 -> contract (ev3 a) -> accepts_4 a ev4 m4 -> contract ev4 ->
  no_forged_ciphertext peer ev4 ->
  (forall q, peer q -> no_collision (ev1 a ++ ev2 a ++ ev3 a) q) ->
  exists q, peer q /\ closes q /\ se_m1 q = m1 /\ same_session a (se q) /\
    same_identifier (ev3 a) (ev3 (se q)) /\ same_ead MSG_4 (se_ev4 q) a ev4.
Proof. exact responder_closed. Qed.
Print Assumptions C68_confirmation.
Example C68_case : let E := demo_env knobs_kid in let x := demo_trips knobs_kid 1 in
  let a := pt_i x in let ev4 := se_ev4 (initiator_session E x) in
  @opened E a (pt_m1 x) (pt_m2 x) /\ @sends_3 E a (pt_m3 x) /\ contract (ev3 a) /\
  @accepts_4 E a ev4 (se_m4 (responder_session E x)) /\ contract ev4 /\
  no_forged_ciphertext (both E x) ev4 /\
  (forall q, both E x q -> no_collision (ev1 a ++ ev2 a ++ ev3 a) q).
Proof.
  intros E x a ev4. destruct (cases 1) as [P N]; [now left|]. destruct P as (P1 & P2 & P3 & P4 & P5 & _).
  destruct N as (_ & _ & _ & _ & _ & N6 & N7). split; [exact P1|]. split; [exact P2|]. split; [exact P3|]. split; [exact P4|]. split; [exact P5|]. split; [exact N6|].
  intros q Q. destruct (N7 q Q) as (_ & H & _). exact H.
Qed.
