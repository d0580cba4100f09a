(** Many sessions under attack: the parties that accepted a message, and fresh ephemeral keys.

    Specification only: no code of /repo is modelled here. *)
From Verif Require Import Monad Rfc Uses Conform Received Sessions Active.

(** No ephemeral public key was generated in both sessions, as initiators or as responders. *)
Definition fresh_1 (p q : session) : Prop :=
  forall priv priv' pub, made (ev1 (se p)) priv pub -> made (ev1 (se q)) priv' pub -> False.
Definition fresh_2 (p q : session) : Prop :=
  forall priv priv' pub, made (ev2 (se p)) priv pub -> made (ev2 (se q)) priv' pub -> False.

(** An initiator that accepted a message 2 authenticated by a signature or a MAC that was not
    forged. *)
Definition believes_2 (owner : bytes -> session -> Prop) (p : session) : Prop :=
  @opened (se_env p) (se p) (se_m1 p) (se_m2 p) /\
  (if responder_static (my_method (s0 (se p)))
   then plain_ids (ev2 (se p)) /\ no_forged_mac owner MAC_2 (ev2 (se p))
   else no_forged_signature owner (ev2 (se p))) /\
  (forall pub q, owner pub q -> no_collision (ev1 (se p) ++ ev2 (se p)) q /\ plain_ids (ev2 (se q))).
(** A responder that accepted a message 3 that was not forged. *)
Definition believes_3 (peer : session -> Prop) (p : session) : Prop :=
  answers p /\ @accepts_3 (se_env p) (se p) (se_m3 p) /\ contract (ev3 (se p)) /\
  no_forged_ciphertext peer (ev3 (se p)) /\
  (forall q, peer q -> no_collision (ev1 (se p) ++ ev2 (se p)) q).
(** An initiator that accepted a message 4 that was not forged. *)
Definition believes_4 (peer : session -> Prop) (p : session) : Prop :=
  confirms p /\ @accepts_4 (se_env p) (se p) (se_ev4 p) (se_m4 p) /\ contract (se_ev4 p) /\
  no_forged_ciphertext peer (se_ev4 p) /\
  (forall q, peer q -> no_collision (ev1 (se p) ++ ev2 (se p) ++ ev3 (se p)) q).
