(** Whole handshakes: the calls of one party, and the contract of a correct crypto library.

    Specification only: no code of /repo is modelled here. *)
From Verif Require Import Monad Api Common Msg1 Msg2 Msg3 Msg4 Exporter History Spec Rfc Uses
  Conform.

(** ** The calls of one party *)
(** The states of one context before message 1 and after messages 1, 2 and 3, and the events of
    the three calls, newest first. *)
Record trip := Trip {
  s0 : ctx; s1 : ctx; s2 : ctx; s3 : ctx;
  ev1 : list event; ev2 : list event; ev3 : list event }.
Section Party.
Context {E : env}.

(** A context that was initialised and then only configured. *)
Definition configured (c : ctx) : Prop :=
  exists c0 l rs t, Forall (fun a => is_config a = true) l /\
    runs (AInit :: l) (Wd c0 []) = Ret rs (Wd c t).
(** Messages [m1] and [m3] composed and [m2] processed with success, or the other way round.
    Anything may happen between the calls that leaves the context alone. *)
Definition initiator (a : trip) (m1 m2 m3 : bytes) : Prop :=
  (exists nn n t, message_1_compose nn n (Wd (s0 a) t) = Ret (OK, m1) (Wd (s1 a) (ev1 a ++ t))) /\
  (exists nn t, message_2_process nn m2 (Wd (s1 a) t) = Ret OK (Wd (s2 a) (ev2 a ++ t))) /\
  (exists nn n t, message_3_compose nn n (Wd (s2 a) t) = Ret (OK, m3) (Wd (s3 a) (ev3 a ++ t))).
Definition responder (a : trip) (m1 m2 m3 : bytes) : Prop :=
  (exists nn t, message_1_process nn m1 (Wd (s0 a) t) = Ret OK (Wd (s1 a) (ev1 a ++ t))) /\
  (exists nn n t, message_2_compose nn n (Wd (s1 a) t) = Ret (OK, m2) (Wd (s2 a) (ev2 a ++ t))) /\
  (exists nn t, message_3_process nn m3 (Wd (s2 a) t) = Ret OK (Wd (s3 a) (ev3 a ++ t))).
End Party.

(** The last configured cipher suite: the one an initiator selects and a responder accepts. *)
Definition my_suite (c : ctx) : csuite :=
  nth (Z.to_nat (c_csuite_len c - 1)) (c_csuites c) csuite0.
(** Lengths of a cipher suite that the key schedule can express (info.length is 32 bits). *)
Definition sizes_ok (s : csuite) : Prop :=
  0 <= cs_hash s < 2 ^ 32 /\ 0 <= cs_mac s < 2 ^ 32 /\ 0 <= cs_key s < 2 ^ 32 /\
  0 <= cs_iv s < 2 ^ 32 /\ 0 <= cs_ecc s.
(** A message as the C type [uint8_t *] with a 32-bit length can hold it. *)
Definition is_message (m : bytes) : Prop := wf_bytes m /\ zlen m < 2 ^ 32.

(** ** A correct crypto library *)
Record primitives := Prim {
  p_hash : Z -> bytes -> bytes;                       (* length, input *)
  p_extract : bytes -> bytes -> bytes;                (* salt, ikm *)
  p_expand : bytes -> bytes -> Z -> bytes;            (* prk, info, length *)
  p_pub : bytes -> bytes;                             (* public key of a private key *)
  p_dh : bytes -> bytes -> bytes;                     (* private key, public key *)
  p_enc : bytes -> bytes -> bytes -> bytes -> bytes;  (* key, nonce, aad, plaintext *)
  p_dec : bytes -> bytes -> bytes -> bytes -> option bytes }.
Definition correct (p : primitives) : Prop :=
  (forall a b, p_dh p a (p_pub p b) = p_dh p b (p_pub p a)) /\
  (forall k n a x, p_dec p k n a (p_enc p k n a x) = Some x).
(** The successful answers in [t] fill their buffers and are those of [p]; [sk] gives the long-term private key behind
    a handle the application owns, that is one the library did not import. *)
Definition obeys (p : primitives) (sk : bytes -> bytes) (t : list event) : Prop :=
  full t /\
  (forall x n y, In (EvHash x n OK y) t -> y = p_hash p n x) /\
  (forall kid salt ikm prk, with_key t (EvExtract kid salt OK prk) kid KT_EXTRACT ikm ->
     prk = p_extract p salt ikm) /\
  (forall kid i n o prk, with_key t (EvExpand kid i n OK o) kid KT_EXPAND prk ->
     o = p_expand p prk i n) /\
  (forall kid priv pub, In (EvMkPair kid OK priv pub) t -> pub = p_pub p priv) /\
  (forall kid peer g priv, with_key t (EvAgree kid peer OK g) kid KT_KEY_AGREEMENT priv ->
     g = p_dh p priv peer) /\
  (forall kid peer g, In (EvAgree kid peer OK g) t ->
     (forall kt key, ~ In (EvImport kt key OK kid) t) -> g = p_dh p (sk kid) peer) /\
  (forall kid n a x y key, with_key t (EvEncrypt kid n a x OK y) kid KT_ENCRYPT key ->
     y = p_enc p key n a x) /\
  (forall kid n a x y key, with_key t (EvDecrypt kid n a y OK x) kid KT_DECRYPT key ->
     p_dec p key n a y = Some x).
(** Handles of long-term keys are not given out by key import. *)
Definition apart (t : list event) : Prop :=
  forall cr kt key, In (EvFetch OK cr) t -> ~ In (EvImport kt key OK (cr_priv cr)) t.
(** The credential one side accepted (in [v]) is the one the other side used (in [f], with the
    long-term keys [sk]); with static Diffie-Hellman the accepted public key belongs to it. *)
Definition honest_credential (p : primitives) (sk : bytes -> bytes) (static : bool)
    (f v : list event) : Prop :=
  forall cr cr0 cr' pub, In (EvFetch OK cr) f -> In (EvCredVerify cr0 OK cr' pub) v ->
    cred_bytes_of cr' = cred_bytes_of cr /\
    (static = true -> pub = p_pub p (sk (cr_priv cr))).

(** Numbers the application hands over fit the C types: methods, suite values, EAD labels. *)
Definition typed (c : ctx) (e : list event) : Prop :=
  Forall int32 (c_methods c) /\ Forall (fun s => int32 (cs_value s)) (c_csuites c) /\
  (forall m l k, In (EvEadCompose m OK l) e -> In k l -> int32 (tk_label k)).
(** The method an initiator proposes: its first one. *)
Definition my_method (c : ctx) : Z := nth 0 (c_methods c) 0.

(** ** An honest exchange *)
(** The initiator [a] and the responder [b], each in its own environment, were configured and
    then exchanged [m1], [m2] and [m3] unmodified; every call succeeded.  Their crypto libraries
    implement the same correct primitives, equal suite values mean equal suites, and each
    accepts the credential the other one uses. *)
Definition exchange (EI ER : env) (p : primitives) (sk_i sk_r : bytes -> bytes) (a b : trip)
    (m1 m2 m3 : bytes) : Prop :=
  @configured EI (s0 a) /\ @configured ER (s0 b) /\
  @initiator EI a m1 m2 m3 /\ @responder ER b m1 m2 m3 /\
  is_message m1 /\ is_message m2 /\ is_message m3 /\
  correct p /\
  (obeys p sk_i (ev1 a) /\ obeys p sk_i (ev2 a) /\ obeys p sk_i (ev3 a)) /\
  (obeys p sk_r (ev1 b) /\ obeys p sk_r (ev2 b) /\ obeys p sk_r (ev3 b)) /\
  apart (ev3 a) /\ apart (ev2 b) /\
  honest_credential p sk_r (responder_static (my_method (s0 a))) (ev2 b) (ev2 a) /\
  honest_credential p sk_i (initiator_static (my_method (s0 a))) (ev3 a) (ev3 b) /\
  sizes_ok (my_suite (s0 a)) /\ sizes_ok (my_suite (s0 b)) /\ typed (s0 a) (ev1 a) /\
  (cs_value (my_suite (s0 a)) = cs_value (my_suite (s0 b)) -> my_suite (s0 a) = my_suite (s0 b)).

(** ** A completed session *)
(** Calls that neither (de)initialise nor replace the cipher suites or the connection
    identifier. *)
Definition session_call (a : api) : bool :=
  match a with AInit | ADeinit | ASuites _ | ACid _ => false | _ => true end.
(** No expand callback failed. *)
Definition expands_ok (t : list event) : Prop :=
  forall kid i n r o, In (EvExpand kid i n r o) t -> r = OK.
(** RFC 9528 4.1.3, 4.2.1 and appendix H over the primitives [p] with hash length [n]. *)
Definition prk_out (p : primitives) (n : Z) (th4 prk4 : bytes) : bytes :=
  p_expand p prk4 (info PRK_out th4 n) n.
Definition exporter (p : primitives) (n : Z) (po : bytes) (label len : Z) : bytes :=
  p_expand p (p_expand p po (info PRK_exporter [] n) n) (info label [] len) len.
Definition update (p : primitives) (n : Z) (po entropy : bytes) : bytes :=
  p_expand p po (info NEW_PRK_out entropy n) n.
(** Entropies of the successful key updates in a history, oldest first. *)
Definition entropies (rs : list result) : list bytes :=
  flat_map (fun r => match rcall r with
                     | AKeyUpdate _ e => if rval r =? OK then [e] else []
                     | _ => []
                     end) rs.
(** What an export with success hands out. *)
Definition export_of (r : result) (label n : Z) (secret : bytes) : Prop :=
  exists nn, r = (AExport nn label n, (OK, OBytes secret)).
Definition oscore_of (r : result) (n_secret n_salt : Z) (secret salt sid rid : bytes) : Prop :=
  exists nn a b, r = (AOscore nn n_secret n_salt a b, (OK, OOscore (OSC secret salt sid rid))).
(** The session of the context [c] later answered the calls [l] with [rs]; [e] are the events. *)
Definition later {E : env} (c : ctx) (rs : list result) (e : list event) : Prop :=
  exists l t c', Forall (fun a => session_call a = true) l /\ runs l (Wd c t) = Ret rs (Wd c' (e ++ t)).
(** PRK_out after the key updates of a history. *)
Definition prk_out_after (p : primitives) (n : Z) (po : bytes) (rs : list result) : bytes :=
  fold_left (update p n) (entropies rs) po.
