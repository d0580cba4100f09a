(** Properties C23, C24, C36, C37, C43, C45, C46: exports.  Vocabulary in Spec.v, Sessions.v and
    Policy.v. *)
From Verif Require Import Monad Api Common Msg1 Msg2 Msg3 Msg4 Exporter History Spec Rfc Uses
  Conform Sessions Policy ExportProofs ExportProofs2 Demo DemoX DemoZ PropSession.

(** Demonstration sessions after message 3. *)
Definition hist_i2 : list api := Eval vm_compute in @h_i2 e0 (setup 1 0) (setup 2 0).
Definition hist_i3 : list api := Eval vm_compute in @h_i3 e0 (setup 1 0) (setup 2 0).
Definition hist_r2 : list api := Eval vm_compute in @h_r2 e0 (setup 1 0) (setup 2 0).
Definition hist_r3 : list api := Eval vm_compute in @h_r3 e0 (setup 1 0) (setup 2 0).
Definition done_i : world := Eval vm_compute in world_of (@runs e0 hist_i3 blank) blank.
Definition done_r : world := Eval vm_compute in world_of (@runs e0 hist_r3 blank) blank.
(** Witnesses are given as values. *)
Ltac ex t := let x := eval vm_compute in t in exists x.
Ltac reach l w := let rs := eval vm_compute in (rs_of (@runs e0 l blank)) in
  refine (reach_run e0 l rs w _); vm_compute; reflexivity.
Example done_reachable : @reachable e0 done_i /\ @reachable e0 done_r.
Proof. split; [reach hist_i3 done_i|reach hist_r3 done_r]. Qed.
Definition no_sk : bytes -> bytes := fun _ => [].

(** ** C23 *)
Theorem C23_label_refused : forall (E : env) nn label n w, ~ public_label label ->
  exists r, do_api (AExport nn label n) w = Ret (r, OBytes []) w /\ r <> OK.
Proof. exact @export_label_refused. Qed.
Print Assumptions C23_label_refused.
(** A public label is not refused: when no callback fails, a completed session exports. *)
Theorem C23_label_accepted : forall (E : env) label n w r w' e,
  do_api (AExport true label n) w = Ret r w' -> public_label label -> 1 <= n < 2 ^ 32 ->
  0 <= cs_hash (the_suite (w_ctx w)) <= 65535 -> 0 <= c_th_len (w_ctx w) <= 65535 ->
  zlen (cbor (Num n)) <= zlen (cbor (Num (cs_hash (the_suite (w_ctx w))))) ->
  c_status (w_ctx w) <= SM_PERSISTED ->
  c_prk_state (w_ctx w) = PRK_OUT \/ c_prk_state (w_ctx w) = PRK_4E3M /\ c_th_state (w_ctx w) = TH_4 ->
  w_tr w' = e ++ w_tr w -> helpful e -> fst r = OK.
Proof. exact @export_succeeds. Qed.
Print Assumptions C23_label_accepted.
Example C23_example :
  vals (@runs e0 [AExport true 32768 16; AExport true 65535 40; AExport true 0 16; AExport true 1 8;
                  AExport true 2 16; AExport true 32767 16; AExport true 65536 16; AExport true (-1) 16] done_i)
  = [OK; OK; OK; OK; E_BAD_STATE; E_BAD_STATE; E_INVALID_ARG; E_BAD_STATE] /\
  helpful (@events_of e0 [AExport true 32768 16] done_i) /\
  c_prk_state (w_ctx done_i) = PRK_4E3M /\ c_th_state (w_ctx done_i) = TH_4 /\
  cs_hash (@the_suite (w_ctx done_i)) = 32 /\ c_th_len (w_ctx done_i) = 32.
Proof.
  split; [vm_compute; reflexivity|]. split; [apply helpful_check; vm_compute; reflexivity|].
  split; [vm_compute; reflexivity|]. split; [vm_compute; reflexivity|]. split; vm_compute; reflexivity.
Qed.

(** ** C24.  The full property is false: see [C24_failing_callback_refuted]. *)
(** Any number of exports changes at most the PRK and its state: not the transcript, the
    identifiers, the status or anything else. *)
Theorem C24_frame : forall (E : env) l w rs w', Forall (fun a => is_export a = true) l ->
  runs l w = Ret rs w' -> only_prk (w_ctx w) (w_ctx w').
Proof. exact @exports_frame. Qed.
Print Assumptions C24_frame.
(** Two exports with the same label and length give the same secret, whatever happens between
    them short of a key update, a new cipher suite or a new session. *)
Theorem C24_repeatable : forall (E : env) f l w r1 nn nn' label n s s' r2 r3 w' e, reachable w ->
  Forall (fun a => rekeys a = false) l ->
  runs l w = Ret (r1 ++ (AExport nn label n, (OK, OBytes s)) :: r2 ++
                  (AExport nn' label n, (OK, OBytes s')) :: r3) w' ->
  w_tr w' = e ++ w_tr w -> expand_fn f e -> s = s'.
Proof. exact @export_repeatable. Qed.
Print Assumptions C24_repeatable.
Example C24_repeatable_example :
  let l := [AExport true 32768 16; AExport true 0 40; AMethods (Some [1]); AM4Compose true 100;
            AOscore true 16 8 8 8; AExport true 2 7; AExport true 32768 16] in
  vals (@runs e0 l done_i) = [OK; OK; OK; E_BAD_STATE; OK; E_BAD_STATE; OK] /\
  zlen (nth 0 (outs (@runs e0 l done_i)) []) = 16 /\
  expand_fn toyf (@events_of e0 l done_i).
Proof.
  cbv zeta. split; [vm_compute; reflexivity|]. split; [vm_compute; reflexivity|].
  apply (expand_fn_check no_sk). vm_compute. reflexivity.
Qed.
(** What an export returns does not depend on the exports made before it, as long as no expand
    callback fails in them. *)
Theorem C24_independent_partial : forall (E : env) f c t l rs nn label n s w e t' l' rs' nn' s' w' e',
  Forall (fun a => is_export a = true) l -> Forall (fun a => is_export a = true) l' ->
  runs (l ++ [AExport nn label n]) (Wd c t) = Ret (rs ++ [(AExport nn label n, (OK, OBytes s))]) w ->
  runs (l' ++ [AExport nn' label n]) (Wd c t') = Ret (rs' ++ [(AExport nn' label n, (OK, OBytes s'))]) w' ->
  w_tr w = e ++ t -> w_tr w' = e' ++ t' -> expand_fn f e -> expand_fn f e' ->
  expands_ok e -> expands_ok e' -> s = s'.
Proof. exact @export_independent. Qed.
Print Assumptions C24_independent_partial.
Example C24_independent_example :
  let l := [AExport true 1 16; AExport true 2 16; AExport true 0 300; AExport true 32768 16] in
  vals (@runs e0 l done_i) = [OK; E_BAD_STATE; E_CBOR; OK] /\
  vals (@runs e0 [AExport true 32768 16] done_i) = [OK] /\
  expand_fn toyf (@events_of e0 l done_i) /\ expands_ok (@events_of e0 l done_i).
Proof.
  cbv zeta. split; [vm_compute; reflexivity|]. split; [vm_compute; reflexivity|].
  split; [apply (expand_fn_check no_sk)|apply expands_check]; vm_compute; reflexivity.
Qed.
(** An expand callback that fails once, while PRK_out is derived. *)
Definition fails_once : env := set_expand (fun p t kid i n =>
  if (nth 0 i 0 =? L_PRK_OUT) && negb (existsb (fun e => match e with EvExpand _ _ _ r _ => negb (r =? OK) | _ => false end) t)
  then (-1, zeros n) else (OK, mixes n (tl kid ++ i))) e0.
Example done_fails_once : @reachable fails_once done_i.
Proof.
  let rs := eval vm_compute in (rs_of (@runs fails_once hist_i3 blank)) in
  refine (reach_run fails_once hist_i3 rs done_i _).
  vm_compute. reflexivity.
Qed.
Theorem C24_failing_callback_refuted : exists (E E' : env) f w r1 r2 s w1 s' w2 e e',
  @runs E [AExport true 32768 16; AExport true 32768 16] w = Ret [(AExport true 32768 16, (r1, r2)); (AExport true 32768 16, (OK, OBytes s))] w1 /\
  @runs E' [AExport true 32768 16] w = Ret [(AExport true 32768 16, (OK, OBytes s'))] w2 /\
  w_tr w1 = e ++ w_tr w /\ w_tr w2 = e' ++ w_tr w /\ expand_fn f e /\ expand_fn f e' /\
  @reachable E w /\ c_status (w_ctx w1) = SM_COMPLETED /\ s <> s'.
Proof.
  exists fails_once, e0, toyf, done_i.
  exists E_PRK, (OBytes []). ex (nth 1 (outs (@runs fails_once [AExport true 32768 16; AExport true 32768 16] done_i)) []).
  ex (world_of (@runs fails_once [AExport true 32768 16; AExport true 32768 16] done_i) blank).
  ex (nth 0 (outs (@runs e0 [AExport true 32768 16] done_i)) []).
  ex (world_of (@runs e0 [AExport true 32768 16] done_i) blank).
  ex (@events_of fails_once [AExport true 32768 16; AExport true 32768 16] done_i).
  ex (@events_of e0 [AExport true 32768 16] done_i).
  split; [vm_compute; reflexivity|]. split; [vm_compute; reflexivity|]. split; [vm_compute; reflexivity|].
  split; [vm_compute; reflexivity|]. split; [apply (expand_fn_check no_sk); vm_compute; reflexivity|].
  split; [apply (expand_fn_check no_sk); vm_compute; reflexivity|].
  split; [|split; [vm_compute; reflexivity|vm_compute; discriminate]].
  exact done_fails_once.
Qed.
Print Assumptions C24_failing_callback_refuted.

(** ** C36.  False: an export or OSCORE export that succeeds ends the possibility of message 4. *)
Theorem C36_export_blocks_message_4 : forall (E : env) w a r w1 l rs w', reachable w ->
  is_export a = true \/ is_oscore a = true -> do_api a w = Ret r w1 -> fst r = OK ->
  ~ In AInit l -> runs l w1 = Ret rs w' ->
  Forall (fun r => is_m4 (rcall r) = true -> rval r <> OK) rs.
Proof. exact @export_blocks_m4. Qed.
Print Assumptions C36_export_blocks_message_4.
Theorem C36_message_4_refuted : exists (E : env) w w1 w2 s m, reachable w /\
  do_api (AM4Compose true 100) w = Ret (OK, OBytes m) w1 /\
  do_api (AExport true 32768 16) w = Ret (OK, OBytes s) w2 /\
  do_api (AM4Compose true 100) w2 = Ret (E_BAD_STATE, OBytes []) w2.
Proof.
  exists e0, done_r. ex (world_of (@runs e0 [AM4Compose true 100] done_r) blank). ex (world_of (@runs e0 [AExport true 32768 16] done_r) blank).
  ex (nth 0 (outs (@runs e0 [AExport true 32768 16] done_r)) []). ex (nth 0 (outs (@runs e0 [AM4Compose true 100] done_r)) []).
  split; [exact (proj2 done_reachable)|]. split; [vm_compute; reflexivity|]. split; vm_compute; reflexivity.
Qed.
Print Assumptions C36_message_4_refuted.
(** What is left: configuration calls and queries keep message 4 possible. *)
Theorem C36_message_4_partial : forall (E : env) a w r w' k,
  is_config a = true \/ match a with AErrCode _ | AErrSuites _ _ _ => True | _ => False end ->
  do_api a w = Ret r w' -> k = M4c \/ k = M4p -> permitted k (w_ctx w) -> permitted k (w_ctx w').
Proof. exact @m4_kept. Qed.
Print Assumptions C36_message_4_partial.
Example C36_example : permitted M4c (w_ctx done_r) /\ permitted M4p (w_ctx done_i).
Proof. split; vm_compute; reflexivity. Qed.

(** A session aborted by a bad message 4. *)
Definition dead_i : world := Eval vm_compute in world_of (@runs e0 (hist_i3 ++ [AM4Process true [255]]) blank) blank.
(** ** C37.  False for the application exporter. *)
Theorem C37_export_refuted : exists (E : env) w s w', reachable w /\ c_status (w_ctx w) = SM_ABORTED /\
  do_api (AExport true 32768 16) w = Ret (OK, OBytes s) w'.
Proof.
  exists e0, dead_i. ex (nth 0 (outs (@runs e0 [AExport true 32768 16] dead_i)) []).
  ex (world_of (@runs e0 [AExport true 32768 16] dead_i) blank).
  split; [reach (hist_i3 ++ [AM4Process true [255]]) dead_i|]. split; vm_compute; reflexivity.
Qed.
Print Assumptions C37_export_refuted.
Theorem C37_aborted_partial : forall (E : env) w l rs w', reachable w -> c_status (w_ctx w) = SM_ABORTED ->
  ~ In AInit l -> runs l w = Ret rs w' ->
  Forall (fun r => needs_session (rcall r) -> rval r <> OK) rs.
Proof. exact @SessionProofs.dead_session. Qed.
Print Assumptions C37_aborted_partial.
Example C37_example :
  vals (@runs e0 (hist_i3 ++
    [AM4Process true [255]; AKeyUpdate true [1]; AOscore true 16 8 8 8; AExport true 32768 16]) blank)
  = [OK; OK; OK; OK; OK; OK; OK; OK; OK; OK; E_MSG4; E_BAD_STATE; E_BAD_STATE; OK].
Proof. vm_compute. reflexivity. Qed.

(** ** C43.  False for the application exporter when an expand callback fails. *)
Theorem C43_key_update : forall (E : env) nn en w r w', reachable w ->
  do_api (AKeyUpdate nn en) w = Ret r w' -> fst r <> OK -> w' = w \/ c_status (w_ctx w') = SM_ABORTED.
Proof. exact @key_update_failed. Qed.
Print Assumptions C43_key_update.
Theorem C43_oscore : forall (E : env) nn a b d e w r w', reachable w ->
  do_api (AOscore nn a b d e) w = Ret r w' -> fst r <> OK -> w' = w \/ c_status (w_ctx w') = SM_ABORTED.
Proof. exact @oscore_failed_keys. Qed.
Print Assumptions C43_oscore.
(** An export call leaves the context alone, or replaces PRK_4e3m by PRK_out, or an expand
    callback failed in it. *)
Theorem C43_export_partial : forall (E : env) nn label n w r w', do_api (AExport nn label n) w = Ret r w' ->
  0 <= cs_hash (the_suite (w_ctx w)) < 2 ^ 32 -> c_prk_len (w_ctx w) = cs_hash (the_suite (w_ctx w)) ->
  exists e, w_tr w' = e ++ w_tr w /\ only_prk (w_ctx w) (w_ctx w') /\
    (w_ctx w' = w_ctx w \/ fst r <> OK /\ ~ expands_ok e \/
     c_prk_state (w_ctx w') = PRK_OUT /\ (full e -> prk_out_of (w_ctx w) e (prk_of (w_ctx w')))).
Proof. exact @export_failed_keys. Qed.
Print Assumptions C43_export_partial.
Theorem C43_export_refuted : exists (E : env) w r w', reachable w /\ c_status (w_ctx w) = SM_COMPLETED /\
  do_api (AExport true 32768 16) w = Ret r w' /\ fst r <> OK /\ c_status (w_ctx w') = SM_COMPLETED /\
  c_prk_state (w_ctx w') = c_prk_state (w_ctx w) /\ prk_of (w_ctx w') <> prk_of (w_ctx w).
Proof.
  exists fails_once, done_i, (E_PRK, OBytes []). ex (world_of (@runs fails_once [AExport true 32768 16] done_i) blank).
  split; [exact done_fails_once|].
  split; [vm_compute; reflexivity|]. split; [vm_compute; reflexivity|]. split; [discriminate|]. split; [vm_compute; reflexivity|].
  split; [vm_compute; reflexivity|]. vm_compute. discriminate.
Qed.
Print Assumptions C43_export_refuted.
Example C43_example :
  c_prk_len (w_ctx done_i) = cs_hash (@the_suite (w_ctx done_i)) /\
  vals (@runs e0 [AExport true 0 300; AKeyUpdate true [1; 2]; AOscore true 300 8 8 8; AKeyUpdate true [1]] done_i)
  = [E_CBOR; OK; E_PRK; E_BAD_STATE].
Proof. split; vm_compute; reflexivity. Qed.

(** ** C45 *)
Theorem C45_authenticated_before_export : forall (E : env) w0 l rs w' r1 x r2, reachable w0 ->
  ~ In AInit l -> runs (AInit :: l) w0 = Ret rs w' -> rs = r1 ++ x :: r2 ->
  is_export (rcall x) = true -> rval x = OK -> authenticated (succeeded r1).
Proof. exact @export_authenticated. Qed.
Print Assumptions C45_authenticated_before_export.
(** All three cases occur; in the first one message 3 did not fit its buffer. *)
Example C45_example :
  vals (@runs e0 (hist_i2 ++ [AM3Compose true 5; AExport true 0 16]) blank)
  = [OK; OK; OK; OK; OK; OK; OK; OK; OK; E_CBOR; OK] /\
  vals (@runs e0 (hist_i3 ++ [AExport true 0 16]) blank)
  = [OK; OK; OK; OK; OK; OK; OK; OK; OK; OK; OK] /\
  vals (@runs e0 (hist_r3 ++ [AExport true 0 16]) blank)
  = [OK; OK; OK; OK; OK; OK; OK; OK; OK; OK; OK] /\
  vals (@runs e0 (hist_r2 ++ [AExport true 0 16; AM3Process true [65; 0]; AExport true 0 16]) blank)
  = [OK; OK; OK; OK; OK; OK; OK; OK; OK; E_BAD_STATE; E_CRYPTO; E_BAD_STATE].
Proof. split; [vm_compute; reflexivity|]. split; [vm_compute; reflexivity|]. split; vm_compute; reflexivity. Qed.

(** ** C46.  False: the scratch buffer is sized for the hash length, not the requested one. *)
Theorem C46_length_limit : forall (E : env) nn label n w r w', do_api (AExport nn label n) w = Ret r w' ->
  fst r = OK -> 0 <= cs_hash (the_suite (w_ctx w)) <= 65535 -> 0 <= n < 2 ^ 32 ->
  zlen (cbor (Num n)) <= zlen (cbor (Num (cs_hash (the_suite (w_ctx w))))).
Proof. exact @export_length_limit. Qed.
Print Assumptions C46_length_limit.
Theorem C46_any_length_refuted : exists (E : env) w w', reachable w /\ c_status (w_ctx w) = SM_COMPLETED /\
  cs_hash (the_suite (w_ctx w)) = 32 /\ helpful (events_of [AExport true 32768 256] w) /\
  do_api (AExport true 32768 256) w = Ret (E_CBOR, OBytes []) w'.
Proof.
  exists e0, done_i. ex (world_of (@runs e0 [AExport true 32768 256] done_i) blank). split; [exact (proj1 done_reachable)|].
  split; [vm_compute; reflexivity|]. split; [vm_compute; reflexivity|]. split; [apply helpful_check; vm_compute; reflexivity|].
  vm_compute. reflexivity.
Qed.
Print Assumptions C46_any_length_refuted.
(** Up to that limit every length works: [C23_label_accepted], here for 32-byte hashes. *)
Theorem C46_any_length_partial : forall (E : env) label n w r w' e,
  do_api (AExport true label n) w = Ret r w' -> public_label label -> 1 <= n <= 255 ->
  24 <= cs_hash (the_suite (w_ctx w)) <= 65535 -> 0 <= c_th_len (w_ctx w) <= 65535 ->
  c_status (w_ctx w) <= SM_PERSISTED ->
  c_prk_state (w_ctx w) = PRK_OUT \/ c_prk_state (w_ctx w) = PRK_4E3M /\ c_th_state (w_ctx w) = TH_4 ->
  w_tr w' = e ++ w_tr w -> helpful e -> fst r = OK.
Proof. exact @export_short_succeeds. Qed.
Print Assumptions C46_any_length_partial.
