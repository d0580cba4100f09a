(** What RFC 9528 requires each message to compute, over the callback answers in a trace.

    Specification only: written from RFC 9528 sections 4 and 5 in the vocabulary of [Rfc] and
    [Uses]; it uses no code of the model. *)
From Verif Require Import Monad Rfc Uses.

(** Length of MAC_x (5.3.2, 5.4.2): the suite's MAC length for static DH, else the hash length. *)
Definition mac_length (s : csuite) (static : bool) : Z := if static then cs_mac s else cs_hash s.

(** One step PRK -> PRK' (4.1.1.2, 4.1.1.3): with static DH the salt is expanded from PRK and
    TH, and PRK' extracted from it and the shared secret [g] with [dh t g]. *)
Definition next_prk (t : list event) (static : bool) (label : Z) (prk th : bytes) (n : Z)
    (dh : list event -> bytes -> Prop) (prk' : bytes) : Prop :=
  if static then exists salt g, expanded t prk (info label th n) n salt /\ dh t g /\
                                extracted t salt g prk'
  else prk' = prk.

(** context_2 and context_3 (5.3.2, 5.4.2), and the external_aad of the signature. *)
Definition external (th cred ead : bytes) : bytes := cbor (Bstr th) ++ cred ++ ead.
Definition context_2 (c_r : cid) (id th2 cred ead : bytes) : bytes :=
  cbor (cid_item c_r) ++ id ++ external th2 cred ead.
Definition context_3 (id th3 cred ead : bytes) : bytes := id ++ external th3 cred ead.

(** Everything derived for message 2. *)
Record run2 := R2 {
  r2_gy : bytes; r2_gxy : bytes; r2_th2 : bytes; r2_prk2e : bytes; r2_prk3 : bytes;
  r2_cred : creds; r2_ead : list token; r2_mac : bytes; r2_ptxt : bytes; r2_ks : bytes;
  r2_th3 : bytes }.
(** TH_2, PRK_2e, PRK_3e2m, MAC_2, KEYSTREAM_2 and TH_3 are the RFC values: [h1] is
    H(message_1), [c_r] the responder's identifier, [dh] the static-DH secret. *)
Definition schedule_2 (t : list event) (s : csuite) (method : Z) (h1 : bytes) (c_r : cid)
    (dh : list event -> bytes -> Prop) (x : run2) : Prop :=
  let st := responder_static method in
  let ml := mac_length s st in
  let n := zlen (r2_ptxt x) in
  hashed t (cbor_seq [Bstr (r2_gy x); Bstr h1]) (cs_hash s) (r2_th2 x) /\
  extracted t (r2_th2 x) (r2_gxy x) (r2_prk2e x) /\
  next_prk t st SALT_3e2m (r2_prk2e x) (r2_th2 x) (cs_hash s) dh (r2_prk3 x) /\
  expanded t (r2_prk3 x)
    (info MAC_2 (context_2 c_r (id_bytes (r2_cred x)) (r2_th2 x) (cred_bytes_of (r2_cred x))
                           (eads (r2_ead x))) ml) ml (r2_mac x) /\
  expanded t (r2_prk2e x) (info KEYSTREAM_2 (r2_th2 x) n) n (r2_ks x) /\
  hashed t (cbor (Bstr (r2_th2 x)) ++ r2_ptxt x ++ cred_bytes_of (r2_cred x)) (cs_hash s)
    (r2_th3 x).

(** Everything derived for message 3. *)
Record run3 := R3 {
  r3_prk4 : bytes; r3_key : bytes; r3_iv : bytes; r3_cred : creds; r3_ead : list token;
  r3_mac : bytes; r3_ptxt : bytes; r3_th4 : bytes }.
Definition schedule_3 (t : list event) (s : csuite) (method : Z) (th3 prk3 : bytes)
    (dh : list event -> bytes -> Prop) (x : run3) : Prop :=
  let st := initiator_static method in
  let ml := mac_length s st in
  expanded t prk3 (info K_3 th3 (cs_key s)) (cs_key s) (r3_key x) /\
  expanded t prk3 (info IV_3 th3 (cs_iv s)) (cs_iv s) (r3_iv x) /\
  next_prk t st SALT_4e3m prk3 th3 (cs_hash s) dh (r3_prk4 x) /\
  expanded t (r3_prk4 x)
    (info MAC_3 (context_3 (id_bytes (r3_cred x)) th3 (cred_bytes_of (r3_cred x))
                           (eads (r3_ead x))) ml) ml (r3_mac x) /\
  hashed t (cbor (Bstr th3) ++ r3_ptxt x ++ cred_bytes_of (r3_cred x)) (cs_hash s) (r3_th4 x).
(** Additional data of CIPHERTEXT_3 and CIPHERTEXT_4. *)
Definition aad (th : bytes) : bytes := enc_structure [] th.

(** Proof of possession (5.3.2, 5.4.2): a signature over Sig_structure, or the MAC itself. *)
Definition sig_input (th : bytes) (cr : creds) (ead : list token) (mac : bytes) : bytes :=
  sig_structure (id_bytes cr) (external th (cred_bytes_of cr) (eads ead)) mac.
Definition proves (t : list event) (static : bool) (th : bytes) (cr : creds) (ead : list token)
    (mac sig : bytes) : Prop :=
  if static then sig = mac else signed t (cr_priv cr) (sig_input th cr ead mac) sig.
Definition checks (t : list event) (static : bool) (pub th : bytes) (cr : creds)
    (ead : list token) (mac sig : bytes) : Prop :=
  if static then sig = mac else verified t pub (sig_input th cr ead mac) sig.

(** K_4, IV_4 (5.5.2). *)
Definition keys_4 (t : list event) (s : csuite) (th prk key iv : bytes) : Prop :=
  expanded t prk (info K_4 th (cs_key s)) (cs_key s) key /\
  expanded t prk (info IV_4 th (cs_iv s)) (cs_iv s) iv.
(** PRK_out of a session (4.1.3): the current PRK once it was derived, else from PRK_4e3m. *)
Definition prk_out_of (c : ctx) (t : list event) (po : bytes) : Prop :=
  if c_prk_state c =? PRK_OUT then po = prk_of c
  else c_prk_state c = PRK_4E3M /\ c_th_state c = TH_4 /\
       expanded t (prk_of c) (info PRK_out (th_of c) (cs_hash (the_suite c))) (cs_hash (the_suite c)) po.
(** EDHOC_Exporter(label, empty context, n) from PRK_out (4.2.1). *)
Definition exported (t : list event) (s : csuite) (po : bytes) (label n : Z) (out : bytes) : Prop :=
  exists pe, expanded t po (info PRK_exporter [] (cs_hash s)) (cs_hash s) pe /\
             expanded t pe (info label [] n) n out.

(** A connection identifier as an OSCORE sender or recipient identifier (3.3.3): an integer is
    its one-byte CBOR encoding. *)
Definition oscore_bytes (i : cid) : bytes := match i with CNum v => cbor (Num v) | CBytes b => b end.

(** EAD items sent with message [msg]: those the compose callback gave, or [l0] (what the
    context held, nothing in a fresh session) when it is not invoked. *)
Definition composed (t : list event) (msg : Z) (l0 l : list token) : Prop :=
  In (EvEadCompose msg OK l) t \/ (l = l0 /\ forall m r l', ~ In (EvEadCompose m r l') t).
