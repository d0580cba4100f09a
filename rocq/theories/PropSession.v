(** Properties C01-C07, C26, C41: configuration, life cycle, message order, resources. *)
From Verif Require Import Monad Api Common Msg1 Msg2 Msg3 Msg4 Exporter History Spec
  ConfigProofs HistoryProofs SessionProofs Demo.

Definition e0 : env := demo_env knobs0.
Definition w_set (p meth : Z) : world := world_of (@runs e0 (setup p meth) blank) blank.

(** ** C01 *)
Theorem C01_set_methods : forall ms c r c', set_methods_call ms c = (r, c') ->
  (r = OK <-> c_is_init c = true /\ exists l, ms = Some l /\ 1 <= zlen l <= 4) /\
  (r <> OK -> c' = c) /\
  (r = OK -> forall l, ms = Some l ->
     c_method_len c' = zlen l /\ take (c_method_len c') (c_methods c') = l /\
     exists a b, c' = set_methods a (set_method_len b c)).
Proof. exact set_methods_spec. Qed.
Print Assumptions C01_set_methods.
Theorem C01_set_cipher_suites : forall (E : env) ss c r c',
  set_cipher_suites_call ss c = (r, c') ->
  (r = OK <-> c_is_init c = true /\ exists l, ss = Some l /\ 1 <= zlen l <= cf_max_suites) /\
  (r <> OK -> c' = c) /\
  (r = OK -> forall l, ss = Some l ->
     c_csuite_len c' = zlen l /\ take (c_csuite_len c') (c_csuites c') = l /\
     exists a b, c' = set_csuites a (set_csuite_len b c)).
Proof. exact @set_cipher_suites_spec. Qed.
Print Assumptions C01_set_cipher_suites.
Theorem C01_set_connection_id : forall (E : env) i c r c',
  set_connection_id_call i c = (r, c') ->
  (r = OK <-> c_is_init c = true /\ exists v, i = Some v /\
     (cid_type v = CID_INT /\ -24 <= cid_int v <= 23 \/
      cid_type v = CID_BSTR /\ 1 <= zlen (cid_bstr v) <= cf_max_cid)) /\
  (r <> OK -> c' = c) /\
  (r = OK -> forall v, i = Some v -> c_cid c' = v /\ exists a, c' = set_cid a c).
Proof. exact @set_connection_id_spec. Qed.
Print Assumptions C01_set_connection_id.
Theorem C01_set_user_context : forall u c r c', set_user_context_call u c = (r, c') ->
  (r = OK <-> c_is_init c = true /\ u <> None) /\ (r <> OK -> c' = c) /\
  (r = OK -> c_user c' = u /\ exists a, c' = set_user a c).
Proof. exact set_user_context_spec. Qed.
Print Assumptions C01_set_user_context.
Theorem C01_bind_ead : forall e c r c', bind_ead_call e c = (r, c') ->
  (r = OK <-> c_is_init c = true /\
     exists f, e = Some f /\ (f_compose f <> None \/ f_process f <> None)) /\
  (r <> OK -> c' = c) /\
  (r = OK -> e = Some (c_ead c') /\ exists a, c' = set_ead a c).
Proof. exact bind_ead_spec. Qed.
Print Assumptions C01_bind_ead.
Theorem C01_bind_keys : forall e c r c', bind_keys_call e c = (r, c') ->
  (r = OK <-> c_is_init c = true /\ exists f, e = Some f /\ keys_complete f) /\
  (r <> OK -> c' = c) /\
  (r = OK -> e = Some (c_keys c') /\ exists a, c' = set_keys a c).
Proof. exact bind_keys_spec. Qed.
Print Assumptions C01_bind_keys.
Theorem C01_bind_crypto : forall e c r c', bind_crypto_call e c = (r, c') ->
  (r = OK <-> c_is_init c = true /\ exists f, e = Some f /\ crypto_complete f) /\
  (r <> OK -> c' = c) /\
  (r = OK -> e = Some (c_crypto c') /\ exists a, c' = set_crypto a c).
Proof. exact bind_crypto_spec. Qed.
Print Assumptions C01_bind_crypto.
Theorem C01_bind_credentials : forall e c r c', bind_credentials_call e c = (r, c') ->
  (r = OK <-> c_is_init c = true /\ exists f, e = Some f /\ cred_complete f) /\
  (r <> OK -> c' = c) /\
  (r = OK -> e = Some (c_cred c') /\ exists a, c' = set_cred a c).
Proof. exact bind_credentials_spec. Qed.
Print Assumptions C01_bind_credentials.
(** Accepted and rejected calls both exist. *)
Example C01_example :
  fst (set_methods_call (Some [0; 3]) (set_is_init true ctx0)) = OK /\
  fst (set_methods_call (Some [0; 1; 2; 3; 0]) (set_is_init true ctx0)) <> OK /\
  fst (@set_connection_id_call e0 (Some (CID CID_INT (-24) [])) (set_is_init true ctx0)) = OK /\
  fst (@set_connection_id_call e0 (Some (CID CID_INT (-25) [])) (set_is_init true ctx0)) <> OK /\
  fst (bind_keys_call (Some (KF (Some 1) None)) (set_is_init true ctx0)) <> OK.
Proof. repeat split; try reflexivity; discriminate. Qed.

(** ** C02 *)
Theorem C02_init : forall c r c', context_init c = (r, c') ->
  r = OK /\ c_is_init c' = true /\ wiped c'.
Proof. exact init_spec. Qed.
Print Assumptions C02_init.
Theorem C02_deinit : forall c r c', context_deinit c = (r, c') ->
  (r = OK <-> c_is_init c = true) /\ (r <> OK -> c' = c) /\
  (r = OK -> c_is_init c' = false /\ wiped c').
Proof. exact deinit_spec. Qed.
Print Assumptions C02_deinit.
Theorem C02_refused_until_init : forall (E : env) w l rs w',
  reachable w -> c_is_init (w_ctx w) = true -> ~ In AInit l ->
  runs (ADeinit :: l) w = Ret rs w' ->
  exists rs1, rs = (ADeinit, (OK, ONone)) :: rs1 /\
  Forall (fun r => needs_session (rcall r) \/ is_config (rcall r) = true -> rval r <> OK) rs1.
Proof. exact @dead_after_deinit. Qed.
Print Assumptions C02_refused_until_init.
Example C02_example :
  vals (@runs e0 (setup 1 0 ++ [ADeinit; AMethods (Some [0]); AM1Compose true 400; ADeinit]) blank)
  = [OK; OK; OK; OK; OK; OK; OK; OK; E_BAD_STATE; E_BAD_STATE; E_BAD_STATE].
Proof. vm_compute. reflexivity. Qed.

(** ** C03 *)
Theorem C03_message_order : forall (E : env) a k w, kind a = Some k ->
  ~ (args_ok a /\ permitted k (w_ctx w)) ->
  exists r o, do_api a w = Ret (r, o) w /\ (r = E_BAD_STATE \/ r = E_INVALID_ARG) /\
              (args_ok a -> r = E_BAD_STATE).
Proof. exact @message_guard. Qed.
Print Assumptions C03_message_order.
Example C03_example : forall k, k <> M1c -> k <> M1p -> ~ permitted k (w_ctx (w_set 1 0)).
Proof. intros k H1 H2. unfold permitted. destruct k; try congruence; vm_compute; discriminate. Qed.

(** ** C04 *)
Theorem C04_failed_call_aborts : forall (E : env) a w r w', reachable w -> past_guards a w ->
  do_api a w = Ret r w' -> fst r <> OK ->
  c_status (w_ctx w') = SM_ABORTED /\
  (c_error (w_ctx w') = EC_UNSPECIFIED \/ c_error (w_ctx w') = EC_WRONG_SUITE \/
   c_error (w_ctx w') = EC_UNKNOWN_CRED).
Proof. exact @failed_call_aborts. Qed.
Print Assumptions C04_failed_call_aborts.
Theorem C04_failed_session_stays_dead : forall (E : env) a w r w1 l rs w', reachable w ->
  past_guards a w -> do_api a w = Ret r w1 -> fst r <> OK ->
  ~ In AInit l -> runs l w1 = Ret rs w' ->
  Forall (fun r => needs_session (rcall r) -> rval r <> OK) rs.
Proof. exact @failed_session_dead. Qed.
Print Assumptions C04_failed_session_stays_dead.
(** A garbage message_1 makes such a failing call. *)
Example C04_example :
  @past_guards (AM1Process true [255]) (w_set 2 0) /\
  vals (@runs e0 (setup 2 0 ++ [AM1Process true [255]; ASuites (Some [suite2]);
                                AM1Process true [0]; AM1Compose true 400; AKeyUpdate true [1]]) blank)
  = [OK; OK; OK; OK; OK; OK; OK; E_MSG1; OK; E_BAD_STATE; E_BAD_STATE; E_BAD_STATE].
Proof.
  split; [exists M1p; repeat split; try discriminate; vm_compute; reflexivity|vm_compute; reflexivity].
Qed.

(** ** C05 *)
Theorem C05_only_complete_handshakes : forall (E : env) w0 l rs w', reachable w0 ->
  ~ In AInit l -> runs (AInit :: l) w0 = Ret rs w' ->
  c_status (w_ctx w') = SM_COMPLETED \/ c_status (w_ctx w') = SM_PERSISTED ->
  full_handshake (succeeded rs).
Proof. exact @complete_handshake. Qed.
Print Assumptions C05_only_complete_handshakes.
Example C05_example :
  match @runs e0 (@h_i3 e0 (setup 1 0) (setup 2 0)) blank,
        @runs e0 (@h_r3 e0 (setup 1 0) (setup 2 0)) blank with
  | Ret ri wi, Ret rr wr =>
      c_status (w_ctx wi) = SM_COMPLETED /\ succeeded ri = [M1c; M2p; M3c] /\
      c_status (w_ctx wr) = SM_COMPLETED /\ succeeded rr = [M1p; M2c; M3p]
  | _, _ => False
  end.
Proof. vm_compute. repeat split. Qed.

(** ** C06.  The full property is false: see [C06_handles_refuted]. *)
Theorem C06_handles_destroyed_partial : forall (E : env) a w r w', reachable w ->
  do_api a w = Ret r w' -> ~ (kind a = Some M1c /\ fst r = E_NO_MEM) ->
  forall h, handles h (w_tr w') = handles h (w_tr w).
Proof. exact @call_handles. Qed.
Print Assumptions C06_handles_destroyed_partial.
(** message_1_compose leaks the key handle when its allocation fails. *)
Definition e_nomem : env := demo_env (Kn None (fun _ _ _ => false) chain_creds (fun _ _ => [])).
Theorem C06_handles_refuted : exists (E : env) a w r w' h, reachable w /\
  do_api a w = Ret r w' /\ handles h (w_tr w') <> handles h (w_tr w).
Proof.
  exists e_nomem, (AM1Compose true 400), (world_of (@runs e_nomem (setup 1 0) blank) blank),
    (E_NO_MEM, OBytes []).
  eexists. exists [KT_MAKE_KEY_PAIR]. split.
  - exists ctx0, (setup 1 0). eexists. vm_compute. reflexivity.
  - split; [vm_compute; reflexivity|]. vm_compute. discriminate.
Qed.
Print Assumptions C06_handles_refuted.
Example C06_example :
  match @runs e0 (@h_i3 e0 (setup 1 3) (setup 2 3)) blank with
  | Ret _ w => existsb (fun e => match e with EvImport _ _ _ _ => true | _ => false end) (w_tr w) = true
  | _ => False
  end.
Proof. vm_compute. reflexivity. Qed.

(** ** C07 *)
Theorem C07_buffers_released : forall (E : env) a w r w', reachable w ->
  do_api a w = Ret r w' ->
  (exists t, w_tr w' = t ++ w_tr w) /\ forall b, live b (w_tr w') = live b (w_tr w).
Proof. exact @call_resources. Qed.
Print Assumptions C07_buffers_released.
Theorem C07_never_frees_dead_block : forall (E : env) a w, reachable w -> do_api a w <> Ub UbFree.
Proof. exact @call_no_bad_free. Qed.
Print Assumptions C07_never_frees_dead_block.
(** An allocator that fails at the first MAC buffer: blocks were obtained and are given back. *)
Definition e_mac_nomem : env :=
  demo_env (Kn None (fun _ b _ => negb (buf_eqb b BMac)) chain_creds (fun _ _ => [])).
Example C07_example :
  match @runs e_mac_nomem (@h_r2 e_mac_nomem (setup 1 0) (setup 2 0)) blank with
  | Ret rs w => last (map rval rs) 0 = E_NO_MEM /\
      existsb (fun e => match e with EvAlloc BMacCtx _ true => true | _ => false end) (w_tr w) = true /\
      live BMacCtx (w_tr w) = 0
  | _ => False
  end.
Proof. vm_compute. repeat split. Qed.

(** ** C26 *)
Theorem C26_oscore_needs_permission : forall (E : env) w0 l rs w' r1 x r2, reachable w0 ->
  ~ In AInit l -> runs (AInit :: l) w0 = Ret rs w' -> rs = r1 ++ x :: r2 ->
  is_oscore (rcall x) = true -> rval x = OK -> armed r1 = true.
Proof. exact @oscore_permission. Qed.
Print Assumptions C26_oscore_needs_permission.
Theorem C26_one_session_each : forall (E : env) w0 l rs w' r1 x r2 y r3, reachable w0 ->
  ~ In AInit l -> runs (AInit :: l) w0 = Ret rs w' -> rs = r1 ++ x :: r2 ++ y :: r3 ->
  is_oscore (rcall x) = true -> rval x = OK -> is_oscore (rcall y) = true -> rval y = OK ->
  Exists (fun z => rval z = OK /\ match rcall z with
      AM3Compose _ _ | AM3Process _ _ | AKeyUpdate _ _ => True | _ => False end) r2.
Proof. exact @oscore_one_shot. Qed.
Print Assumptions C26_one_session_each.
Theorem C26_failed_attempt_ends_session : forall (E : env) a b c d e w r w1 l rs w', reachable w ->
  do_api (AOscore a b c d e) w = Ret r w1 -> fst r <> OK -> w1 <> w -> ~ In AInit l ->
  runs l w1 = Ret rs w' -> Forall (fun r => needs_session (rcall r) -> rval r <> OK) rs.
Proof. exact @failed_oscore_dead. Qed.
Print Assumptions C26_failed_attempt_ends_session.
Example C26_example :
  let osc := AOscore true 16 8 7 7 in
  vals (@runs e0 (@h_i3 e0 (setup 1 0) (setup 2 0) ++ [osc; osc; AKeyUpdate true [1; 2]; osc; osc]) blank)
  = [OK; OK; OK; OK; OK; OK; OK; OK; OK; OK; OK; E_BAD_STATE; OK; OK; E_BAD_STATE] /\
  vals (@runs e0 (@h_i3 e0 (setup 1 0) (setup 2 0) ++ [AOscore true 16 8 1 1; osc]) blank)
  = [OK; OK; OK; OK; OK; OK; OK; OK; OK; OK; E_TOO_SMALL; E_BAD_STATE].
Proof. vm_compute. repeat split. Qed.

(** ** C41 *)
Theorem C41_error_code_tracks_last_message_call : forall (E : env) w a r w1 l rs w2 v code w3,
  reachable w -> past_guards a w -> do_api a w = Ret r w1 ->
  quiet l w1 -> runs l w1 = Ret rs w2 ->
  do_api (AErrCode true) w2 = Ret (v, OCode (Some code)) w3 ->
  v = OK /\ w3 = w2 /\ (code = EC_SUCCESS <-> fst r = OK) /\
  (fst r <> OK -> code = EC_UNSPECIFIED \/ code = EC_WRONG_SUITE \/ code = EC_UNKNOWN_CRED).
Proof. exact @error_code_tracks. Qed.
Print Assumptions C41_error_code_tracks_last_message_call.
Theorem C41_suites_only_after_mismatch : forall (E : env) w a r w1 l rs w2 nn n p o q w3,
  reachable w -> past_guards a w -> do_api a w = Ret r w1 ->
  quiet l w1 -> runs l w1 = Ret rs w2 ->
  do_api (AErrSuites nn n p) w2 = Ret (OK, OSuites o q) w3 ->
  kind a = Some M1p /\ fst r <> OK /\ w3 = w2.
Proof. exact @suites_after_mismatch. Qed.
Print Assumptions C41_suites_only_after_mismatch.
Theorem C41_suites_in_buffers : forall nn n p c o q, 0 <= n -> 0 <= p ->
  error_get_cipher_suites nn n p c = (OK, o, q) ->
  exists own peer, o = Some own /\ q = Some peer /\ zlen own <= n /\ zlen peer <= p /\
  own = map (fun i => cs_value (nth i (c_csuites c) csuite0)) (seq 0 (Z.to_nat (c_csuite_len c))) /\
  peer = map (fun i => nth i (c_peer_csuites c) 0) (seq 0 (Z.to_nat (c_peer_csuite_len c))).
Proof. exact suites_in_buffers. Qed.
Print Assumptions C41_suites_in_buffers.
(** A responder that only knows suite 3 meets an initiator that only offers suite 2. *)
Definition setup3 : list api :=
  setup 2 0 ++ [ASuites (Some [suite3])].
Example C41_example :
  match @runs e0 (@h_r1 e0 (setup 1 0) setup3 ++ [AErrCode true; AErrSuites true 3 3]) blank with
  | Ret rs _ => skipn 8 (map (fun r => snd r) rs) =
      [(E_MSG1, ONone); (OK, OCode (Some EC_WRONG_SUITE)); (OK, OSuites (Some [3]) (Some [2]))]
  | _ => False
  end.
Proof. vm_compute. reflexivity. Qed.
