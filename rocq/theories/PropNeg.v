(** Properties C10, C21, C22: which message_1 a responder accepts.  Vocabulary in Rfc.v, Wire.v,
    Received.v, Sessions.v and Policy.v. *)
From Verif Require Import Monad Api Common Msg1 Msg2 Msg3 Msg4 Exporter History Spec Rfc Wire Uses
  Conform Received Sessions Policy NegProofs2 NegProofs3 Demo DemoX DemoZ PropSession.

(** Responders with one and with two cipher suites. *)
Definition resp : ctx := @start_of e0 (setup 2 0).
Definition setup_two : list api :=
  [AInit; AMethods (Some [0; 3]); ASuites (Some [suite2; suite3]); ACid (Some (demo_cid 2));
   ABindKeys (Some (KF (Some 2) (Some 2))); ABindCrypto (Some (demo_crypto 2));
   ABindCred (Some (RF (Some 2) (Some 2)))].
Definition resp_two : ctx := @start_of e0 setup_two.
Example resp_configured : @configured e0 resp /\ @configured e0 resp_two.
Proof. split; apply start_configured; vm_compute; reflexivity. Qed.
Definition gx_demo : bytes := cert_of 7.

(** ** C10.  False: the code ignores a decoding failure unless the decoder also consumed
    everything (message_1.c 331). *)
(** METHOD, SUITES_I and G_X alone, without C_I, are accepted. *)
Theorem C10_truncated_refuted : exists (E : env) c m w,
  configured c /\ wf_bytes m /\ message_1_process true m (Wd c []) = Ret OK w /\
  forall method suites gx ci l, ~ written_seq (message_1_items method suites gx ci l) m.
Proof.
  exists e0, resp, (0 :: 2 :: 88 :: 32 :: gx_demo), (world_of (@runs e0 [AM1Process true (0 :: 2 :: 88 :: 32 :: gx_demo)] (Wd resp [])) blank).
  split; [exact (proj1 resp_configured)|]. split; [apply message_check; vm_compute; reflexivity|]. split; [vm_compute; reflexivity|].
  intros method suites gx ci l. apply no_cid; vm_compute; reflexivity || discriminate.
Qed.
Print Assumptions C10_truncated_refuted.
(** So is a message_1 followed by a byte that no EAD item starts with. *)
Theorem C10_trailing_refuted : exists (E : env) c m w,
  configured c /\ wf_bytes m /\ message_1_process true m (Wd c []) = Ret OK w /\
  forall method suites gx ci l, ~ written_seq (message_1_items method suites gx ci l) m.
Proof.
  exists e0, resp, (0 :: 2 :: 88 :: 32 :: gx_demo ++ [5; 255]), (world_of (@runs e0 [AM1Process true (0 :: 2 :: 88 :: 32 :: gx_demo ++ [5; 255])] (Wd resp [])) blank).
  split; [exact (proj1 resp_configured)|]. split; [apply message_check; vm_compute; reflexivity|]. split; [vm_compute; reflexivity|].
  intros method suites gx ci l. apply no_trailing; vm_compute; reflexivity || discriminate.
Qed.
Print Assumptions C10_trailing_refuted.
(** What holds: an accepted message begins with METHOD, SUITES_I and a G_X of the right length,
    and with the C_I that is used, unless that one is the empty byte string.  Missing: nothing
    is said about the rest of the message. *)
Theorem C10_message_1_partial : forall (E : env) nn m c t c' t',
  message_1_process nn m (Wd c t) = Ret OK (Wd c' t') -> 0 < cs_ecc (my_suite c) -> wf_bytes m ->
  exists suites, zlen (peer_of c') = cs_ecc (my_suite c) /\ 
    (carries m [Num (c_chosen_method c'); suites_item suites; Bstr (peer_of c'); cid_item (cid_rfc (c_peer_cid c'))] \/
     carries m [Num (c_chosen_method c'); suites_item suites; Bstr (peer_of c')] /\ cid_rfc (c_peer_cid c') = CBytes []) /\
    c_peer_csuite_len c' = zlen suites.
Proof. exact @message_1_shape. Qed.
Print Assumptions C10_message_1_partial.
Definition m1_demo : bytes := @h_m1 e0 (setup 1 0).
Example C10_example :
  vals (@runs e0 [AM1Process true m1_demo] (Wd resp [])) = [OK] /\ cs_ecc (my_suite resp) = 32 /\ is_message m1_demo /\
  vals (@runs e0 [AM1Process true (take 20 m1_demo)] (Wd resp [])) = [-999] /\
  vals (@runs e0 [AM1Process true [0; 2; 65; 1; 5]] (Wd resp [])) = [E_MSG1] /\
  vals (@runs e0 [AM1Process true [64; 2; 65; 1; 5]] (Wd resp [])) = [E_MSG1].
Proof.
  split; [vm_compute; reflexivity|]. split; [vm_compute; reflexivity|]. split; [apply message_check; vm_compute; reflexivity|].
  split; [vm_compute; reflexivity|]. split; vm_compute; reflexivity.
Qed.

(** ** C21 *)
Theorem C21_accepted : forall (E : env) nn m c t c' t', configured c ->
  message_1_process nn m (Wd c t) = Ret OK (Wd c' t') -> 0 < cs_ecc (my_suite c) -> wf_bytes m ->
  exists suites, carries m [Num (c_chosen_method c'); suites_item suites; Bstr (peer_of c')] /\
    In (c_chosen_method c') (my_methods c) /\ In (the_suite c') (my_suites c) /\
    last suites 0 = cs_value (the_suite c').
Proof. exact @neg_accepted. Qed.
Print Assumptions C21_accepted.
(** A suite the responder does not support is reported with both lists. *)
Theorem C21_mismatch_reported : forall (E : env) c t method suites r a b x w, configured c -> my_suites c <> [] ->
  int32 method -> In method (my_methods c) ->
  1 <= zlen suites <= 3 -> zlen suites <= cf_max_suites -> Forall int32 suites ->
  ~ In (last suites 0) (map cs_value (my_suites c)) ->
  zlen (my_suites c) <= a -> zlen suites <= b ->
  runs [AM1Process true (cbor_seq [Num method; suites_item suites] ++ r); AErrCode true; AErrSuites true a b] (Wd c t) = Ret x w ->
  map snd x = [(E_MSG1, ONone); (OK, OCode (Some EC_WRONG_SUITE));
               (OK, OSuites (Some (map cs_value (my_suites c))) (Some suites))].
Proof. exact @neg_unsupported. Qed.
Print Assumptions C21_mismatch_reported.
(** A method the responder was not configured with is refused. *)
Theorem C21_method_refused : forall (E : env) c t method suites r y w, configured c -> my_suites c <> [] ->
  int32 method -> ~ In method (my_methods c) -> 1 <= zlen suites <= 3 -> Forall int32 suites ->
  message_1_process true (cbor_seq [Num method; suites_item suites] ++ r) (Wd c t) = Ret y w ->
  y <> OK /\ c_status (w_ctx w) = SM_ABORTED.
Proof. exact @neg_method. Qed.
Print Assumptions C21_method_refused.
Example C21_example :
  my_methods resp_two = [0; 3] /\ my_suites resp_two = [suite2; suite3] /\ cs_ecc (my_suite resp_two) = 32 /\
  (let m := cbor_seq (message_1_items 3 [2; 3] gx_demo (CNum 5) []) in
   is_message m /\ vals (@runs e0 [AM1Process true m] (Wd resp_two [])) = [OK]) /\
  (let m := cbor_seq [Num 3; suites_item [2; 6]] ++ [65; 0; 5] in
   map snd (rs_of (@runs e0 [AM1Process true m; AErrCode true; AErrSuites true 3 3] (Wd resp_two [])))
   = [(E_MSG1, ONone); (OK, OCode (Some EC_WRONG_SUITE)); (OK, OSuites (Some [2; 3]) (Some [2; 6]))]) /\
  (let m := cbor_seq (message_1_items 1 [2; 3] gx_demo (CNum 5) []) in
   vals (@runs e0 [AM1Process true m] (Wd resp_two [])) = [E_MSG1]).
Proof.
  split; [vm_compute; reflexivity|]. split; [vm_compute; reflexivity|]. split; [vm_compute; reflexivity|].
  split; [cbv zeta; split; [apply message_check; vm_compute; reflexivity|vm_compute; reflexivity]|].
  split; cbv zeta; vm_compute; reflexivity.
Qed.

(** ** C22.  False: a responder only ever accepts the last of its suites. *)
Theorem C22_not_last_rejected : forall (E : env) c t method suites r a b x w, configured c -> my_suites c <> [] ->
  int32 method -> In method (my_methods c) ->
  1 <= zlen suites <= 3 -> zlen suites <= cf_max_suites -> Forall int32 suites -> last suites 0 <> cs_value (my_suite c) ->
  zlen (my_suites c) <= a -> zlen suites <= b ->
  runs [AM1Process true (cbor_seq [Num method; suites_item suites] ++ r); AErrCode true; AErrSuites true a b] (Wd c t) = Ret x w ->
  map snd x = [(E_MSG1, ONone); (OK, OCode (Some EC_WRONG_SUITE));
               (OK, OSuites (Some (map cs_value (my_suites c))) (Some suites))].
Proof. exact @neg_mismatch. Qed.
Print Assumptions C22_not_last_rejected.
(** The responder supports suites 2 and 3, the initiator prefers and selects suite 2. *)
Theorem C22_any_suite_refuted : exists (E : env) c s m w,
  configured c /\ In s (my_suites c) /\ In 0 (my_methods c) /\
  m = cbor_seq (message_1_items 0 [cs_value s] gx_demo (CNum 5) []) /\ zlen gx_demo = cs_ecc s /\
  message_1_process true m (Wd c []) = Ret E_MSG1 w /\ c_error (w_ctx w) = EC_WRONG_SUITE.
Proof.
  exists e0, resp_two, suite2, (cbor_seq (message_1_items 0 [2] gx_demo (CNum 5) [])),
    (world_of (@runs e0 [AM1Process true (cbor_seq (message_1_items 0 [2] gx_demo (CNum 5) []))] (Wd resp_two [])) blank).
  split; [exact (proj2 resp_configured)|]. split; [vm_compute; auto|]. split; [vm_compute; auto|].
  split; [reflexivity|]. split; [vm_compute; reflexivity|]. split; vm_compute; reflexivity.
Qed.
Print Assumptions C22_any_suite_refuted.
(** What holds: its last suite is accepted.  Missing: every other supported suite. *)
Theorem C22_last_suite_partial : forall (E : env) c t method suites gx ci l y w' e, configured c -> my_suites c <> [] ->
  int32 method -> In method (my_methods c) ->
  1 <= zlen suites <= 3 -> zlen suites <= cf_max_suites -> Forall int32 suites -> last suites 0 = cs_value (my_suite c) ->
  zlen gx = cs_ecc (my_suite c) -> zlen gx < 2 ^ 64 -> cid_within cf_max_cid ci -> cf_max_cid < 2 ^ 64 ->
  Forall ead_ok l -> zlen l <= 3 -> zlen l <= cf_max_ead ->
  message_1_process true (cbor_seq (message_1_items method suites gx ci l)) (Wd c t) = Ret y w' ->
  w_tr w' = e ++ t -> passes e -> y = OK /\ the_suite (w_ctx w') = my_suite c /\ c_status (w_ctx w') = SM_RECEIVED_M1.
Proof. exact @neg_match. Qed.
Print Assumptions C22_last_suite_partial.
Example C22_example :
  let m := cbor_seq (message_1_items 0 [6; 2; 3] gx_demo (CBytes [1; 2]) [(4, Some [1]); (-7, None)]) in
  my_suite resp_two = suite3 /\ vals (@runs e0 [AM1Process true m] (Wd resp_two [])) = [OK] /\
  passes (@events_of e0 [AM1Process true m] (Wd resp_two [])).
Proof.
  cbv zeta. split; [vm_compute; reflexivity|]. split; [vm_compute; reflexivity|]. apply passes_check. vm_compute. reflexivity.
Qed.
