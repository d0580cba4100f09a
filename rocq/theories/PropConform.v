(** Properties C15, C16, C19, C20, C29, C38, C39, C40, C44: what every successful message call
    computed, checked and delivered.  The RFC formulas are in Rfc.v and Conform.v, the meaning of
    traces in Uses.v, received bytes and identities in Received.v. *)
From Verif Require Import Monad Api Common Msg1 Msg2 Msg3 Msg4 Exporter History Spec Rfc Uses
  Conform Wire Received Sessions InUse Agree Honest Claims2 Claims3 Clean Demo DemoX DemoY DemoC.

(** ** The demonstration exchange (method 1, key identifiers, EAD in every message) meets the
    premises of the theorems about single calls. *)
Definition ex : pair_of_trips := demo_trips knobs_kid 1.
Example exchange_case : demo_exchange_of knobs_kid 1.
Proof. exact (demo_exchange _ _ demo_ok_1). Qed.
Example cases : demo_calls (demo_env knobs_kid) ex.
Proof. apply calls_check; [exact exchange_case|unfold ex; rewrite kid_1_is; vm_cast_no_check (eq_refl true)]. Qed.
Example cases_in_use : @in_use (demo_env knobs_kid) (s1 (pt_i ex)) /\ @in_use (demo_env knobs_kid) (s2 (pt_r ex)).
Proof. exact (demo_in_use 1 (or_intror (or_introl eq_refl))). Qed.

(** ** C15 *)
Theorem C15_th1_compose : forall (E : env) nn n c t m c' t',
  message_1_compose nn n (Wd c t) = Ret (OK, m) (Wd c' t') ->
  c_th_state c' = TH_1 /\ exists e, t' = e ++ t /\ hashed e m (cs_hash (my_suite c)) (th_of c').
Proof. exact @th1_compose. Qed.
Print Assumptions C15_th1_compose.
Theorem C15_th1_process : forall (E : env) nn m c t c' t',
  message_1_process nn m (Wd c t) = Ret OK (Wd c' t') -> 0 <= cs_ecc (my_suite c) ->
  c_th_state c' = TH_1 /\ exists e, t' = e ++ t /\ hashed e m (cs_hash (my_suite c)) (th_of c').
Proof. exact @th1_process. Qed.
Print Assumptions C15_th1_process.
(** TH_2 = H(G_Y, H(message_1)), TH_3 = H(TH_2, PLAINTEXT_2, CRED_R); [th_of c] is H(message_1). *)
Theorem C15_th2_th3_compose : forall (E : env) nn n c t m c' t',
  message_2_compose nn n (Wd c t) = Ret (OK, m) (Wd c' t') ->
  sizes_ok (the_suite c) -> zlen m < 2 ^ 32 ->
  c_th_state c' = TH_3 /\ exists e gy ptxt prk ks cred th2 th3, let h := cs_hash (the_suite c) in
    t' = e ++ t /\ m = cbor (Bstr (gy ++ xor_bytes ptxt ks)) /\ zlen gy = cs_ecc (the_suite c) /\
    expanded e prk (info KEYSTREAM_2 th2 (zlen ptxt)) (zlen ptxt) ks /\ In (EvFetch OK cred) e /\
    hashed e (cbor_seq [Bstr gy; Bstr (th_of c)]) h th2 /\
    hashed e (cbor (Bstr th2) ++ ptxt ++ cred_bytes_of cred) h th3 /\
    (full e -> th_of c' = th3).
Proof. exact @th23_compose. Qed.
Print Assumptions C15_th2_th3_compose.
Theorem C15_th2_th3_process : forall (E : env) nn m c t c' t',
  message_2_process nn m (Wd c t) = Ret OK (Wd c' t') ->
  sizes_ok (the_suite c) -> is_message m ->
  c_th_state c' = TH_3 /\ exists e gy ct ptxt prk ks cred cr0 pub th2 th3, let h := cs_hash (the_suite c) in
    t' = e ++ t /\ carries m [Bstr (gy ++ ct)] /\ zlen gy = cs_ecc (the_suite c) /\
    ptxt = xor_bytes ct ks /\ expanded e prk (info KEYSTREAM_2 th2 (zlen ptxt)) (zlen ptxt) ks /\
    In (EvCredVerify cr0 OK cred pub) e /\
    hashed e (cbor_seq [Bstr gy; Bstr (th_of c)]) h th2 /\
    hashed e (cbor (Bstr th2) ++ ptxt ++ cred_bytes_of cred) h th3 /\
    (full e -> th_of c' = th3).
Proof. exact @th23_process. Qed.
Print Assumptions C15_th2_th3_process.
(** TH_4 = H(TH_3, PLAINTEXT_3, CRED_I). *)
Theorem C15_th4_compose : forall (E : env) nn n c t m c' t',
  message_3_compose nn n (Wd c t) = Ret (OK, m) (Wd c' t') -> sizes_ok (the_suite c) ->
  c_th_state c' = TH_4 /\ exists e key iv ptxt ct cred,
    t' = e ++ t /\ m = cbor (Bstr ct) /\ encrypted e key iv (aad (th_of c)) ptxt ct /\ In (EvFetch OK cred) e /\
    hashed e (cbor (Bstr (th_of c)) ++ ptxt ++ cred_bytes_of cred) (cs_hash (the_suite c)) (th_of c').
Proof. exact @th4_compose. Qed.
Print Assumptions C15_th4_compose.
Theorem C15_th4_process : forall (E : env) nn m c t c' t',
  message_3_process nn m (Wd c t) = Ret OK (Wd c' t') -> sizes_ok (the_suite c) -> is_message m ->
  c_th_state c' = TH_4 /\ exists e key iv ptxt ct cred cr0 pub,
    t' = e ++ t /\ carries m [Bstr ct] /\ decrypted e key iv (aad (th_of c)) ct ptxt /\ In (EvCredVerify cr0 OK cred pub) e /\
    hashed e (cbor (Bstr (th_of c)) ++ ptxt ++ cred_bytes_of cred) (cs_hash (the_suite c)) (th_of c').
Proof. exact @th4_process. Qed.
Print Assumptions C15_th4_process.

(** ** C16 *)
Theorem C16_message_2_compose : forall (E : env) nn n c t m c' t',
  message_2_compose nn n (Wd c t) = Ret (OK, m) (Wd c' t') ->
  sizes_ok (the_suite c) -> zlen m < 2 ^ 32 ->
  exists e x, t' = e ++ t /\ made e (priv_of c') (r2_gy x) /\ agreed e (priv_of c') (peer_of c) (r2_gxy x) /\
    In (EvFetch OK (r2_cred x)) e /\ composed e MSG_2 (c_tokens c) (r2_ead x) /\
    schedule_2 e (the_suite c) (c_chosen_method c) (th_of c) (cid_rfc (c_cid c))
      (fun t g => agreed_lt t (cr_priv (r2_cred x)) (peer_of c) g) x /\
    m = cbor (Bstr (r2_gy x ++ xor_bytes (r2_ptxt x) (r2_ks x))) /\
    c_prk_state c' = PRK_3E2M /\ prk_of c' = r2_prk3 x.
Proof. exact @keys_compose_2. Qed.
Print Assumptions C16_message_2_compose.
Theorem C16_message_2_process : forall (E : env) nn m c t c' t',
  message_2_process nn m (Wd c t) = Ret OK (Wd c' t') ->
  sizes_ok (the_suite c) -> is_message m ->
  exists e x cr0 pub ct, t' = e ++ t /\ agreed e (priv_of c) (r2_gy x) (r2_gxy x) /\ In (EvCredVerify cr0 OK (r2_cred x) pub) e /\
    schedule_2 e (the_suite c) (c_chosen_method c) (th_of c) (cid_rfc (c_peer_cid c'))
      (fun t g => agreed t (priv_of c) pub g) x /\
    carries m [Bstr (r2_gy x ++ ct)] /\ r2_ptxt x = xor_bytes ct (r2_ks x) /\
    c_prk_state c' = PRK_3E2M /\ prk_of c' = r2_prk3 x.
Proof. exact @keys_process_2. Qed.
Print Assumptions C16_message_2_process.
Theorem C16_message_3_compose : forall (E : env) nn n c t m c' t',
  message_3_compose nn n (Wd c t) = Ret (OK, m) (Wd c' t') -> sizes_ok (the_suite c) ->
  exists e x ct, t' = e ++ t /\ In (EvFetch OK (r3_cred x)) e /\ composed e MSG_3 (c_tokens c) (r3_ead x) /\
    schedule_3 e (the_suite c) (c_chosen_method c) (th_of c) (prk_of c)
      (fun t g => agreed_lt t (cr_priv (r3_cred x)) (peer_of c) g) x /\
    encrypted e (r3_key x) (r3_iv x) (aad (th_of c)) (r3_ptxt x) ct /\ m = cbor (Bstr ct) /\
    c_prk_state c' = PRK_4E3M /\ prk_of c' = r3_prk4 x.
Proof. exact @keys_compose_3. Qed.
Print Assumptions C16_message_3_compose.
Theorem C16_message_3_process : forall (E : env) nn m c t c' t',
  message_3_process nn m (Wd c t) = Ret OK (Wd c' t') -> sizes_ok (the_suite c) -> is_message m ->
  exists e x cr0 pub ct, t' = e ++ t /\ In (EvCredVerify cr0 OK (r3_cred x) pub) e /\
    schedule_3 e (the_suite c) (c_chosen_method c) (th_of c) (prk_of c) (fun t g => agreed t (priv_of c) pub g) x /\
    carries m [Bstr ct] /\ decrypted e (r3_key x) (r3_iv x) (aad (th_of c)) ct (r3_ptxt x) /\
    c_prk_state c' = PRK_4E3M /\ prk_of c' = r3_prk4 x.
Proof. exact @keys_process_3. Qed.
Print Assumptions C16_message_3_process.
Theorem C16_message_4_compose : forall (E : env) nn n c t m c' t',
  message_4_compose nn n (Wd c t) = Ret (OK, m) (Wd c' t') -> sizes_ok (the_suite c) ->
  exists e l key iv ct, t' = e ++ t /\ keys_4 e (the_suite c) (th_of c) (prk_of c) key iv /\ composed e MSG_4 (c_tokens c) l /\
    encrypted e key iv (aad (th_of c)) (eads l) ct /\ m = cbor (Bstr ct).
Proof. exact @keys_compose_4. Qed.
Print Assumptions C16_message_4_compose.
Theorem C16_message_4_process : forall (E : env) nn m c t c' t',
  message_4_process nn m (Wd c t) = Ret OK (Wd c' t') -> sizes_ok (the_suite c) -> is_message m ->
  exists e key iv ct ptxt, t' = e ++ t /\ keys_4 e (the_suite c) (th_of c) (prk_of c) key iv /\
    carries m [Bstr ct] /\ decrypted e key iv (aad (th_of c)) ct ptxt.
Proof. exact @keys_process_4. Qed.
Print Assumptions C16_message_4_process.
(** PRK_out and the exporter. *)
Theorem C16_exporter : forall (E : env) nn label n c t b c' t',
  export_prk_exporter nn label n (Wd c t) = Ret (OK, b) (Wd c' t') ->
  0 <= cs_hash (the_suite c) < 2 ^ 32 -> c_prk_len c = cs_hash (the_suite c) -> 0 <= n < 2 ^ 32 -> 0 <= c_prk_state c <= PRK_OUT ->
  exists e po, t' = e ++ t /\ prk_out_of c e po /\
    (full e -> c_prk_state c' = PRK_OUT /\ prk_of c' = po /\ exported e (the_suite c) po label n b /\ zlen b = n).
Proof. exact @keys_export. Qed.
Print Assumptions C16_exporter.

(** ** C19, C20 *)
Theorem C19_responder_authenticated : forall (E : env) nn m c t c' t',
  message_2_process nn m (Wd c t) = Ret OK (Wd c' t') ->
  sizes_ok (the_suite c) -> is_message m -> in_use c ->
  exists e, t' = e ++ t /\ (octets e ->
    exists x ct id sig cr0 pub, let st := responder_static (c_chosen_method c) in
      carries m [Bstr (r2_gy x ++ ct)] /\ zlen (r2_gy x) = cs_ecc (the_suite c) /\
      agreed e (priv_of c) (r2_gy x) (r2_gxy x) /\
      schedule_2 e (the_suite c) (c_chosen_method c) (th_of c) (cid_rfc (c_peer_cid c'))
        (fun t g => agreed t (priv_of c) pub g) x /\
      r2_ptxt x = xor_bytes ct (r2_ks x) /\
      carries (r2_ptxt x) (plaintext_2_items (cid_rfc (c_peer_cid c')) id sig (map ead_of (r2_ead x))) /\
      names false id cr0 /\ In (EvCredVerify cr0 OK (r2_cred x) pub) e /\
      checks e st pub (r2_th2 x) (r2_cred x) (r2_ead x) (r2_mac x) sig).
Proof. exact @used_authentic_2. Qed.
Print Assumptions C19_responder_authenticated.
Theorem C20_initiator_authenticated : forall (E : env) nn m c t c' t',
  message_3_process nn m (Wd c t) = Ret OK (Wd c' t') ->
  sizes_ok (the_suite c) -> is_message m -> in_use c ->
  c_status c' = SM_COMPLETED /\ c_oscore_ok c' = true /\
  exists e, t' = e ++ t /\ (octets e ->
    exists x ct id sig cr0 pub, let st := initiator_static (c_chosen_method c) in
      carries m [Bstr ct] /\
      schedule_3 e (the_suite c) (c_chosen_method c) (th_of c) (prk_of c) (fun t g => agreed t (priv_of c) pub g) x /\
      decrypted e (r3_key x) (r3_iv x) (aad (th_of c)) ct (r3_ptxt x) /\
      carries (r3_ptxt x) (plaintext_3_items id sig (map ead_of (r3_ead x))) /\
      names true id cr0 /\ In (EvCredVerify cr0 OK (r3_cred x) pub) e /\
      checks e st pub (th_of c) (r3_cred x) (r3_ead x) (r3_mac x) sig).
Proof. exact @used_authentic_3. Qed.
Print Assumptions C20_initiator_authenticated.

(** ** C29 *)
(** Message 1: items that carry a value arrive.  Missing: an item without a value, see the
    refutation. *)
Theorem C29_message_1_partial : forall EI ER a0 a1 e nn n t b0 b1 f nn' t' m1,
  @configured EI a0 ->
  @message_1_compose EI nn n (Wd a0 t) = Ret (OK, m1) (Wd a1 (e ++ t)) ->
  @message_1_process ER nn' m1 (Wd b0 t') = Ret OK (Wd b1 (f ++ t')) ->
  is_message m1 -> typed a0 e -> 0 <= cs_ecc (my_suite b0) -> f_process (c_ead b0) <> None ->
  (forall x, In x (sent MSG_1 e) -> snd x <> None) ->
  received MSG_1 f = sent MSG_1 e.
Proof. exact eads_1_valued. Qed.
Print Assumptions C29_message_1_partial.
(** An item sent without a value in message 1 arrives with an empty one. *)
Theorem C29_message_1_refuted : exists E a0 a1 e b0 b1 f m1,
  @configured E a0 /\ @configured E b0 /\
  @message_1_compose E true 400 (Wd a0 []) = Ret (OK, m1) (Wd a1 (e ++ [])) /\
  @message_1_process E true m1 (Wd b0 []) = Ret OK (Wd b1 (f ++ [])) /\
  sent MSG_1 e = [(7, None)] /\ received MSG_1 f = [(7, Some [])].
Proof. exact valueless_1. Qed.
Print Assumptions C29_message_1_refuted.
Theorem C29_message_2 : forall EI ER p sk_i sk_r a b m1 m2 m3,
  exchange EI ER p sk_i sk_r a b m1 m2 m3 ->
  labels_ok (ev2 b) -> (forall cr, In (EvFetch OK cr) (ev2 b) -> exists i, travels cr i) ->
  f_process (c_ead (s0 a)) <> None -> @cf_max_ead EI <> 0 -> received MSG_2 (ev2 a) = sent MSG_2 (ev2 b).
Proof. exact eads_2. Qed.
Print Assumptions C29_message_2.
Theorem C29_message_3 : forall EI ER p sk_i sk_r a b m1 m2 m3,
  exchange EI ER p sk_i sk_r a b m1 m2 m3 ->
  labels_ok (ev3 a) -> (forall cr, In (EvFetch OK cr) (ev3 a) -> exists i, travels cr i) ->
  f_process (c_ead (s0 b)) <> None -> @cf_max_ead ER <> 0 -> received MSG_3 (ev3 b) = sent MSG_3 (ev3 a).
Proof. exact eads_3. Qed.
Print Assumptions C29_message_3.
Theorem C29_message_4 : forall EI ER p sk_i sk_r a b m1 m2 m3,
  exchange EI ER p sk_i sk_r a b m1 m2 m3 ->
  forall nn n t m4 b4 e nn' t' a4 f sk sk',
  @message_4_compose ER nn n (Wd (s3 b) t) = Ret (OK, m4) (Wd b4 (e ++ t)) ->
  @message_4_process EI nn' m4 (Wd (s3 a) t') = Ret OK (Wd a4 (f ++ t')) ->
  obeys p sk e -> obeys p sk' f -> zlen m4 < 2 ^ 32 -> labels_ok e ->
  f_process (c_ead (s0 a)) <> None -> @cf_max_ead EI <> 0 -> received MSG_4 f = sent MSG_4 e.
Proof. exact eads_4. Qed.
Print Assumptions C29_message_4.
Example C29_case : labels_ok (ev2 (pt_r ex)) /\ labels_ok (ev3 (pt_i ex)) /\
  (forall cr, In (EvFetch OK cr) (ev2 (pt_r ex)) -> exists i, travels cr i) /\
  (forall cr, In (EvFetch OK cr) (ev3 (pt_i ex)) -> exists i, travels cr i) /\
  f_process (c_ead (s0 (pt_i ex))) <> None /\ f_process (c_ead (s0 (pt_r ex))) <> None /\
  @cf_max_ead (demo_env knobs_kid) <> 0 /\
  sent MSG_2 (ev2 (pt_r ex)) = [(7, Some [1; 2; 1])] /\ sent MSG_3 (ev3 (pt_i ex)) = [(6, Some [1; 2; 2])].
Proof. apply demo_eads. unfold ex. rewrite kid_1_is. vm_cast_no_check (eq_refl true). Qed.

(** ** C38 *)
Theorem C38_mac_2_made : forall (E : env) nn n c t m c' t',
  message_2_compose nn n (Wd c t) = Ret (OK, m) (Wd c' t') ->
  sizes_ok (the_suite c) -> zlen m < 2 ^ 32 ->
  exists e gy ptxt ks id sig cr l th prk context len mac, t' = e ++ t /\
    m = cbor (Bstr (gy ++ xor_bytes ptxt ks)) /\
    ptxt = cbor (cid_item (cid_rfc (c_cid c))) ++ id ++ cbor (Bstr sig) ++ eads l /\
    expanded e prk (info MAC_2 context len) len mac /\ zlen mac = len /\
    mac_rule (c_chosen_method c) [1; 3] (the_suite c) len /\
    (In (c_chosen_method c) [1; 3] -> sig = mac) /\
    (~ In (c_chosen_method c) [1; 3] -> signed e (cr_priv cr) (sig_input th cr l mac) sig).
Proof. exact @mac_compose_2. Qed.
Print Assumptions C38_mac_2_made.
Theorem C38_mac_2_checked : forall (E : env) nn m c t c' t',
  message_2_process nn m (Wd c t) = Ret OK (Wd c' t') ->
  sizes_ok (the_suite c) -> is_message m -> in_use c ->
  exists e, t' = e ++ t /\ (octets e -> exists gy ct ks id sig cr l th prk pub context len mac,
    carries m [Bstr (gy ++ ct)] /\
    carries (xor_bytes ct ks) (plaintext_2_items (cid_rfc (c_peer_cid c')) id sig (map ead_of l)) /\
    expanded e prk (info MAC_2 context len) len mac /\ zlen mac = len /\
    mac_rule (c_chosen_method c) [1; 3] (the_suite c) len /\
    (In (c_chosen_method c) [1; 3] -> sig = mac) /\
    (~ In (c_chosen_method c) [1; 3] -> verified e pub (sig_input th cr l mac) sig)).
Proof. exact @used_mac_2. Qed.
Print Assumptions C38_mac_2_checked.
Theorem C38_mac_3_made : forall (E : env) nn n c t m c' t',
  message_3_compose nn n (Wd c t) = Ret (OK, m) (Wd c' t') -> sizes_ok (the_suite c) ->
  exists e key iv ct ptxt id sig cr l prk context len mac, t' = e ++ t /\
    m = cbor (Bstr ct) /\ encrypted e key iv (aad (th_of c)) ptxt ct /\
    ptxt = id ++ cbor (Bstr sig) ++ eads l /\
    expanded e prk (info MAC_3 context len) len mac /\ zlen mac = len /\
    mac_rule (c_chosen_method c) [2; 3] (the_suite c) len /\
    (In (c_chosen_method c) [2; 3] -> sig = mac) /\
    (~ In (c_chosen_method c) [2; 3] -> signed e (cr_priv cr) (sig_input (th_of c) cr l mac) sig).
Proof. exact @mac_compose_3. Qed.
Print Assumptions C38_mac_3_made.
Theorem C38_mac_3_checked : forall (E : env) nn m c t c' t',
  message_3_process nn m (Wd c t) = Ret OK (Wd c' t') ->
  sizes_ok (the_suite c) -> is_message m -> in_use c ->
  exists e, t' = e ++ t /\ (octets e -> exists key iv ct ptxt id sig cr l prk pub context len mac,
    carries m [Bstr ct] /\ decrypted e key iv (aad (th_of c)) ct ptxt /\
    carries ptxt (plaintext_3_items id sig (map ead_of l)) /\
    expanded e prk (info MAC_3 context len) len mac /\ zlen mac = len /\
    mac_rule (c_chosen_method c) [2; 3] (the_suite c) len /\
    (In (c_chosen_method c) [2; 3] -> sig = mac) /\
    (~ In (c_chosen_method c) [2; 3] -> verified e pub (sig_input (th_of c) cr l mac) sig)).
Proof. exact @used_mac_3. Qed.
Print Assumptions C38_mac_3_checked.

(** ** C39 *)
(** Missing: EAD items without a value, see the refutation. *)
Theorem C39_message_1_bytes_partial : forall (E : env) nn n c t m c' e,
  configured c -> message_1_compose nn n (Wd c t) = Ret (OK, m) (Wd c' (e ++ t)) ->
  (forall x, In x (sent MSG_1 e) -> snd x <> None) ->
  exists gx, let suites := map cs_value (take (c_csuite_len c) (c_csuites c)) in
    made e (priv_of c') gx /\ zlen gx = cs_ecc (my_suite c) /\ last suites 0 = cs_value (my_suite c) /\
    1 <= zlen suites <= 3 /\
    m = cbor_seq (message_1_items (my_method c) suites gx (cid_rfc (c_cid c)) (sent MSG_1 e)).
Proof. exact @message_1_bytes_valued. Qed.
Print Assumptions C39_message_1_bytes_partial.
Theorem C39_message_1_bytes_refuted : exists E c m c' e,
  @configured E c /\ @message_1_compose E true 400 (Wd c []) = Ret (OK, m) (Wd c' (e ++ [])) /\
  forall method suites gx ci, m <> cbor_seq (message_1_items method suites gx ci (sent MSG_1 e)).
Proof. exact valueless_bytes. Qed.
Print Assumptions C39_message_1_bytes_refuted.
Example C39_case : @configured (demo_env knobs_kid) (s0 (pt_i ex)) /\
  sent MSG_1 (ev1 (pt_i ex)) = [(6, Some [1; 2; 0])] /\ my_method (s0 (pt_i ex)) = 1.
Proof. split; [exact (proj1 exchange_case)|]. unfold ex. rewrite kid_1_is. split; vm_compute; reflexivity. Qed.

(** ** C40 *)
(** [cr]: what the sender's fetch callback supplied; [cr0]: what the receiver's verify callback
    was asked about; [cr']: what it answered.  Missing: identifiers that do not [travel], and the
    field-by-field equality for key identifiers given in encoded form. *)
Theorem C40_identifier_2_partial : forall EI ER p sk_i sk_r a b m1 m2 m3,
  exchange EI ER p sk_i sk_r a b m1 m2 m3 ->
  forall cr i cr0 cr' pub, In (EvFetch OK cr) (ev2 b) -> travels cr i ->
  In (EvCredVerify cr0 OK cr' pub) (ev2 a) ->
  travels cr0 i /\ (raw_kid cr = false -> same_identity cr cr0) /\
  (raw_kid cr = false -> same_identity cr0 cr' ->
   id_bytes cr' = id_bytes cr /\ cred_bytes_of cr' = cred_bytes_of cr).
Proof. exact id_agreed_2. Qed.
Print Assumptions C40_identifier_2_partial.
Theorem C40_identifier_3_partial : forall EI ER p sk_i sk_r a b m1 m2 m3,
  exchange EI ER p sk_i sk_r a b m1 m2 m3 ->
  forall cr i cr0 cr' pub, In (EvFetch OK cr) (ev3 a) -> travels cr i ->
  In (EvCredVerify cr0 OK cr' pub) (ev3 b) ->
  travels cr0 i /\ (raw_kid cr = false -> same_identity cr cr0) /\
  (raw_kid cr = false -> same_identity cr0 cr' ->
   id_bytes cr' = id_bytes cr /\ cred_bytes_of cr' = cred_bytes_of cr).
Proof. exact id_agreed_3. Qed.
Print Assumptions C40_identifier_3_partial.
(** A key identifier 100 is sent with success; the peer is asked about another one. *)
Theorem C40_identifier_refuted : exists E c m c' e d r d' f cr cr0 r' cr' pub,
  @message_2_compose E true 400 (Wd c []) = Ret (OK, m) (Wd c' (e ++ [])) /\
  @message_2_process E true m (Wd d []) = Ret r (Wd d' (f ++ [])) /\
  In (EvFetch OK cr) e /\ In (EvCredVerify cr0 r' cr' pub) f /\
  cr_body cr = CKid (cert_of 100) false ENC_INT 100 [] /\ ~ same_identity cr cr0.
Proof. exact kid_100. Qed.
Print Assumptions C40_identifier_refuted.
Example C40_case : exists cr i cr0 cr' pub, In (EvFetch OK cr) (ev2 (pt_r ex)) /\ travels cr i /\
  In (EvCredVerify cr0 OK cr' pub) (ev2 (pt_i ex)) /\ raw_kid cr = false /\ same_identity cr0 cr'.
Proof. apply demo_ids. unfold ex. rewrite kid_1_is. vm_cast_no_check (eq_refl true). Qed.

(** ** C44 *)
Theorem C44_asked_once : forall (E : env) a w r w', do_api a w = Ret r w' -> exists e, w_tr w' = e ++ w_tr w /\
  (asked is_fetch e <= 1 /\ asked is_verify e <= 1 /\ asked is_compose e <= 1 /\ asked is_process e <= 1)%nat /\
  (asked is_fetch e <> 0%nat -> In (kind a) [Some M2c; Some M3c]) /\
  (asked is_verify e <> 0%nat -> In (kind a) [Some M2p; Some M3p]) /\
  (asked is_compose e <> 0%nat -> In (kind a) [Some M1c; Some M2c; Some M3c; Some M4c]) /\
  (asked is_process e <> 0%nat -> In (kind a) [Some M1p; Some M2p; Some M3p; Some M4p]).
Proof. exact asks_once. Qed.
Print Assumptions C44_asked_once.
Example C44_case : asked is_fetch (ev2 (pt_r ex)) = 1%nat /\ asked is_verify (ev2 (pt_i ex)) = 1%nat /\
  asked is_compose (ev2 (pt_r ex)) = 1%nat /\ asked is_process (ev2 (pt_i ex)) = 1%nat.
Proof. unfold ex. rewrite kid_1_is. vm_compute. repeat split. Qed.
