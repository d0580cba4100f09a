(** Sessions under attack: the messages a party gets may come from anyone.

    Specification only: no code of /repo is modelled here. *)
From Verif Require Import Monad Msg1 Msg2 Msg3 Msg4 Rfc Uses Wire Conform Received Sessions.

(** ** One party, as far as it got *)
Section Party.
Context {E : env}.
Definition starts (a : trip) (m1 : bytes) : Prop :=
  exists nn n t, message_1_compose nn n (Wd (s0 a) t) = Ret (OK, m1) (Wd (s1 a) (ev1 a ++ t)).
Definition accepts_2 (a : trip) (m2 : bytes) : Prop :=
  exists nn t, message_2_process nn m2 (Wd (s1 a) t) = Ret OK (Wd (s2 a) (ev2 a ++ t)).
Definition sends_3 (a : trip) (m3 : bytes) : Prop :=
  exists nn n t, message_3_compose nn n (Wd (s2 a) t) = Ret (OK, m3) (Wd (s3 a) (ev3 a ++ t)).
Definition accepts_4 (a : trip) (ev4 : list event) (m4 : bytes) : Prop :=
  exists nn t c, message_4_process nn m4 (Wd (s3 a) t) = Ret OK (Wd c (ev4 ++ t)).
Definition accepts_1 (b : trip) (m1 : bytes) : Prop :=
  exists nn t, message_1_process nn m1 (Wd (s0 b) t) = Ret OK (Wd (s1 b) (ev1 b ++ t)).
Definition sends_2 (b : trip) (m2 : bytes) : Prop :=
  exists nn n t, message_2_compose nn n (Wd (s1 b) t) = Ret (OK, m2) (Wd (s2 b) (ev2 b ++ t)).
Definition accepts_3 (b : trip) (m3 : bytes) : Prop :=
  exists nn t, message_3_process nn m3 (Wd (s2 b) t) = Ret OK (Wd (s3 b) (ev3 b ++ t)).
Definition sends_4 (b : trip) (ev4 : list event) (m4 : bytes) : Prop :=
  exists nn n t c, message_4_compose nn n (Wd (s3 b) t) = Ret (OK, m4) (Wd c (ev4 ++ t)).
(** The context was initialised and only configured; its cipher suite has usable lengths. *)
Definition ready (a : trip) : Prop := configured (s0 a) /\ sizes_ok (my_suite (s0 a)).
(** Hash, expand and decrypt callbacks keep their contract, and inputs fit in memory. *)
Definition in_memory (t : list event) : Prop :=
  (forall x n y, hashed t x n y -> zlen x < 2 ^ 64) /\
  (forall kid x s, In (EvSign kid x OK s) t -> zlen x < 2 ^ 64) /\
  (forall kid x s, In (EvVerify kid x s OK) t -> zlen x < 2 ^ 64) /\
  (forall kid i n o, In (EvExpand kid i n OK o) t -> zlen i < 2 ^ 64) /\
  (forall kid n a x y, In (EvEncrypt kid n a x OK y) t -> zlen a < 2 ^ 64) /\
  (forall kid n a x y, In (EvDecrypt kid n a y OK x) t -> zlen a < 2 ^ 64).
Definition contract (t : list event) : Prop := full t /\ octets t /\ in_memory t.
(** An initiator that accepted message 2; a responder that answered with message 2. *)
Definition opened (a : trip) (m1 m2 : bytes) : Prop :=
  ready a /\ starts a m1 /\ accepts_2 a m2 /\ is_message m1 /\ is_message m2 /\
  typed (s0 a) (ev1 a) /\ contract (ev1 a) /\ contract (ev2 a).
Definition answered (b : trip) (m1 m2 : bytes) : Prop :=
  ready b /\ accepts_1 b m1 /\ sends_2 b m2 /\ zlen m2 < 2 ^ 32 /\
  contract (ev1 b) /\ contract (ev2 b).
End Party.

(** ** The sessions of the honest parties *)
(** One session: its environment, its states and events, and the messages it sent or accepted.
    The fields of steps it did not reach do not matter. *)
Record session := Session {
  se_env : env; se : trip; se_ev4 : list event;
  se_m1 : bytes; se_m2 : bytes; se_m3 : bytes; se_m4 : bytes }.
(** A responder that sent message 2; one that also sent message 4; an initiator that sent
    message 3. *)
Definition answers (q : session) : Prop := @answered (se_env q) (se q) (se_m1 q) (se_m2 q).
Definition closes (q : session) : Prop :=
  answers q /\ @accepts_3 (se_env q) (se q) (se_m3 q) /\ contract (ev3 (se q)) /\
  @sends_4 (se_env q) (se q) (se_ev4 q) (se_m4 q) /\ contract (se_ev4 q).
Definition confirms (q : session) : Prop :=
  @opened (se_env q) (se q) (se_m1 q) (se_m2 q) /\ @sends_3 (se_env q) (se q) (se_m3 q) /\
  contract (ev3 (se q)).
(** What an honest session signs, authenticates with a MAC, and encrypts. *)
Definition has_signed (q : session) (x : bytes) : Prop :=
  (answers q /\ exists kid s, signed (ev2 (se q)) kid x s) \/
  (confirms q /\ exists kid s, signed (ev3 (se q)) kid x s).
Definition has_maced (q : session) (i : bytes) : Prop :=
  (answers q /\ exists prk n o, expanded (ev2 (se q)) prk i n o) \/
  (confirms q /\ exists prk n o, expanded (ev3 (se q)) prk i n o).
Definition has_sealed (q : session) (k n ad x y : bytes) : Prop :=
  (confirms q /\ encrypted (ev3 (se q)) k n ad x y) \/
  (closes q /\ encrypted (se_ev4 q) k n ad x y).

(** ** What the attacker cannot do *)
(** [owner pub q]: [q] is a session of the party that holds the private key of [pub].  Every
    signature that verified in [t] was made by such a session... *)
Definition no_forged_signature (owner : bytes -> session -> Prop) (t : list event) : Prop :=
  forall pub x s, verified t pub x s -> exists q, owner pub q /\ has_signed q x.
(** ... every MAC that a party computed in [t] and found in the message was computed by a session
    of the party whose credential was accepted... *)
Definition no_forged_mac (owner : bytes -> session -> Prop) (label : Z) (t : list event) : Prop :=
  forall cr0 cr pub prk context len n o, In (EvCredVerify cr0 OK cr pub) t ->
    expanded t prk (info label context len) n o ->
    exists q, owner pub q /\ has_maced q (info label context len).
(** ... and every ciphertext that decrypted in [t] was made by an honest session, from the same
    plaintext and additional data under the same key. *)
Definition no_forged_ciphertext (peer : session -> Prop) (t : list event) : Prop :=
  forall k n ad y x, decrypted t k n ad y x -> exists q, peer q /\ has_sealed q k n ad x y.
(** Hash collisions between the party with the events [t] and an honest session were not found. *)
Definition no_collision (t : list event) (q : session) : Prop :=
  forall x n x' n' y, hashed t x n y ->
    hashed (ev1 (se q) ++ ev2 (se q) ++ ev3 (se q)) x' n' y -> x = x'.

(** Nor were two MACs with equal values over different contexts. *)
Definition no_mac_collision (label : Z) (t : list event) (q : session) : Prop :=
  forall prk x len n prk' x' len' n' o, expanded t prk (info label x len) n o ->
    expanded (ev2 (se q)) prk' (info label x' len') n' o -> x = x'.

(** ** What two parties agree on *)
(** Message 1: the responder [b] got what the initiator [a] proposed, and works with it. *)
Definition same_start (a b : trip) : Prop :=
  c_chosen_method (s1 b) = my_method (s0 a) /\
  take (c_peer_csuite_len (s1 b)) (c_peer_csuites (s1 b)) =
    map cs_value (take (c_csuite_len (s0 a)) (c_csuites (s0 a))) /\
  cs_value (my_suite (s0 b)) = cs_value (my_suite (s0 a)) /\
  cid_rfc (c_peer_cid (s1 b)) = cid_rfc (c_cid (s0 a)) /\
  made (ev1 a) (priv_of (s1 a)) (peer_of (s1 b)).
(** Message 2: the ephemeral key that [a] got is the one [b] made. *)
Definition same_answer (a b : trip) : Prop :=
  made (ev2 b) (priv_of (s2 b)) (peer_of (s2 a)).
(** Also the responder's identifier. *)
Definition same_responder_id (a b : trip) : Prop :=
  cid_rfc (c_peer_cid (s2 a)) = cid_rfc (c_cid (s0 b)).
(** And the credential identifier that [b] sent is the one [a] looked up; likewise in message 3
    from [a] to [b]. *)
Definition same_identifier (f v : list event) : Prop :=
  forall cr i cr0 r cr' pub, In (EvFetch OK cr) f -> travels cr i ->
    In (EvCredVerify cr0 r cr' pub) v ->
    travels cr0 i /\ (raw_kid cr = false -> same_identity cr cr0).
Definition same_session (a b : trip) : Prop :=
  same_start a b /\ same_answer a b /\ same_responder_id a b /\ same_identifier (ev2 b) (ev2 a).
(** EAD items of message [msg], from the sender's events [f] to the events [v] of [b]. *)
Definition same_ead {E : env} (msg : Z) (f : list event) (b : trip) (v : list event) : Prop :=
  labels_ok f -> (forall cr, In (EvFetch OK cr) f -> exists i, travels cr i) ->
  f_process (c_ead (s0 b)) <> None -> cf_max_ead <> 0 -> received msg v = sent msg f.
(** ID_CRED_x of every credential is one CBOR item (only the kind "any" may break this). *)
Definition plain_ids (t : list event) : Prop :=
  (forall cr, In (EvFetch OK cr) t -> exists i, written i (id_bytes cr)) /\
  (forall cr0 cr pub, In (EvCredVerify cr0 OK cr pub) t -> exists i, written i (id_bytes cr)).
(** The credential that the other side presented (fetched in [f]) has the identifier ID_CRED_x,
    and, followed by the EAD items of message [msg], the encoding CRED_x of the one that was
    accepted in [v]: [l] is what the compose callback gave, [l'] what the process callback got. *)
Definition same_credential (msg : Z) (f v : list event) (pub : bytes) : Prop :=
  exists cr cr0 cr' l l', In (EvFetch OK cr) f /\ In (EvCredVerify cr0 OK cr' pub) v /\
    composed f msg [] l /\ (forall m k r, In (EvEadProcess m k r) v -> m = msg /\ k = l') /\
    id_bytes cr' = id_bytes cr /\ cred_bytes_of cr' ++ eads l' = cred_bytes_of cr ++ eads l.
