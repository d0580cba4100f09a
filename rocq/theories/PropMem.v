(** Properties C11, C12, C13, C30, C34, C35, C42: buffers, faults, leftovers of a session.
    Vocabulary in Spec.v, Rfc.v, Received.v, Policy.v and Safety.v; the demonstration
    environments [eh] (heap), [eg] (heap, allocator grants everything) and [es] (variable-length
    arrays) are in DemoS.v. *)
From Verif Require Import Monad Api Common Msg1 Msg2 Msg3 Msg4 Exporter History Spec Rfc Wire Uses
  Conform Received Sessions Policy Safety MemProofs MemProofs2 Demo DemoX DemoZ DemoS.

(** Sessions of the demonstration: the initiator after messages 1, 2, 3, the responder before
    message 1 and after messages 2, 3. *)
Definition li1 : list api := Eval vm_compute in h_i1 (setup_ead 1 0).
Definition li2 : list api := Eval vm_compute in @h_i2 eh (setup_ead 1 0) (setup_ead 2 0).
Definition li3 : list api := Eval vm_compute in @h_i3 eh (setup_ead 1 0) (setup_ead 2 0).
Definition lr0 : list api := Eval vm_compute in setup_ead 2 0.
Definition lr2 : list api := Eval vm_compute in @h_r2 eh (setup_ead 1 0) (setup_ead 2 0).
Definition lr3 : list api := Eval vm_compute in @h_r3 eh (setup_ead 1 0) (setup_ead 2 0).
Definition wi1 : world := Eval vm_compute in world_of (@runs eh li1 blank) blank.
Definition wi2 : world := Eval vm_compute in world_of (@runs eh li2 blank) blank.
Definition wi3 : world := Eval vm_compute in world_of (@runs eh li3 blank) blank.
Definition wr0 : world := Eval vm_compute in world_of (@runs eh lr0 blank) blank.
Definition wr2 : world := Eval vm_compute in world_of (@runs eh lr2 blank) blank.
Definition wr3 : world := Eval vm_compute in world_of (@runs eh lr3 blank) blank.
Definition msg2 : bytes := Eval vm_compute in @h_m2 eh (setup_ead 1 0) (setup_ead 2 0).
Definition msg3 : bytes := Eval vm_compute in @h_m3 eh (setup_ead 1 0) (setup_ead 2 0).
Ltac ex t := let x := eval vm_compute in t in exists x.
Ltac is_careful E l := let rs := eval vm_compute in (rs_of (@runs E l blank)) in
  refine (@careful_check E (tl l) rs _ _ _); vm_compute; reflexivity.
Lemma careful_demo : @careful_world eh wi1 /\ @careful_world eh wi2 /\ @careful_world eh wi3 /\
  @careful_world eh wr0 /\ @careful_world eh wr2 /\ @careful_world eh wr3.
Proof.
  split; [is_careful eh li1|]. split; [is_careful eh li2|]. split; [is_careful eh li3|].
  split; [is_careful eh lr0|]. split; [is_careful eh lr2|is_careful eh lr3].
Qed.
Lemma fits_demo : forall a, (kind a <> None) -> @fit_call eh a (w_ctx wi1) /\ @fit_call eh a (w_ctx wi2) /\
  @fit_call eh a (w_ctx wi3) /\ @fit_call eh a (w_ctx wr0) /\ @fit_call eh a (w_ctx wr2) /\ @fit_call eh a (w_ctx wr3).
Proof. intros a K. destruct a; try (now elim K); do 5 (split; [apply fitb_ok; reflexivity|]); apply fitb_ok; reflexivity. Qed.

(** ** C11.  False as stated: the length is subtracted without a check, so a short message
    makes the code ask for a buffer of almost 2^64 bytes (message_2.c 895-922, message_3.c and
    message_4.c), and it is up to the allocator to refuse. *)
(** A message_2 of one byte: the initiator asks for 2^64 - 31 bytes. *)
Theorem C11_oversized_allocation_refuted : exists (E : env) w msg r w',
  limits /\ abides /\ heap /\ careful_world w /\ fit_call (AM2Process true msg) (w_ctx w) /\ wf_bytes msg /\
  carries msg [Bstr [1]] /\ cs_ecc (the_suite (w_ctx w)) = 32 /\
  do_api (AM2Process true msg) w = Ret r w' /\ w_tr w' = EvAlloc BCiphertext (2 ^ 64 - 31) false :: w_tr w.
Proof.
  exists eh, wi1, [65; 1]. ex (E_NO_MEM, ONone). ex (world_of (@runs eh [AM2Process true [65; 1]] wi1) blank).
  split; [apply eh_ok|]. split; [apply eh_ok|]. split; [exact eh_heap|]. split; [apply careful_demo|].
  split; [now apply fits_demo|]. split; [apply message_check; vm_compute; reflexivity|].
  split; [apply (@dec_carries eh); [apply message_check|]; vm_compute; reflexivity|]. split; [reflexivity|]. split; vm_compute; reflexivity.
Qed.
Print Assumptions C11_oversized_allocation_refuted.
(** When the allocator grants it, G_Y is read beyond the end of the message. *)
Theorem C11_out_of_bounds_refuted : exists (E : env) w msg,
  limits /\ abides /\ cf_stack = None /\ careful_world w /\ fit_call (AM2Process true msg) (w_ctx w) /\ wf_bytes msg /\
  do_api (AM2Process true msg) w = Ub UbStrRead.
Proof.
  exists eg, wi1, [65; 1].
  split; [apply eg_ok|]. split; [apply eg_ok|]. split; [reflexivity|]. split; [is_careful eg li1|].
  split; [apply fitb_ok; reflexivity|]. split; [apply message_check; vm_compute; reflexivity|]. vm_compute; reflexivity.
Qed.
Print Assumptions C11_out_of_bounds_refuted.
(** What holds, for working buffers on the heap and an allocator that refuses half of the
    address space: a message_2 too short for G_Y is rejected, nothing but the refused request
    happens, and the session is dead. *)
Theorem C11_message_2_partial : forall (E : env), limits -> abides -> heap -> forall w msg, careful_world w ->
  cf_max_ecc <= 2 ^ 62 -> permitted M2p (w_ctx w) -> wf_bytes msg -> msg <> [] ->
  short_of (cs_ecc (the_suite (w_ctx w))) msg ->
  exists r w' e, do_api (AM2Process true msg) w = Ret (r, ONone) w' /\ (r = E_TOO_SMALL \/ r = E_NO_MEM) /\
    c_status (w_ctx w') = SM_ABORTED /\ w_tr w' = e ++ w_tr w /\ forall x, In x e -> exists n, x = EvAlloc BCiphertext n false.
Proof. exact @short_2. Qed.
Print Assumptions C11_message_2_partial.
(** A message_3 or message_4 too short for the tag is rejected without a fault. *)
Theorem C11_message_3_4_partial : forall (E : env), limits -> abides -> heap -> forall w a k msg, careful_world w ->
  fit_call a (w_ctx w) -> cs_tag (the_suite (w_ctx w)) <= 2 ^ 62 ->
  a = AM3Process true msg /\ k = M3p \/ a = AM4Process true msg /\ k = M4p ->
  permitted k (w_ctx w) -> wf_bytes msg -> msg <> [] -> short_of (cs_tag (the_suite (w_ctx w))) msg ->
  exists r w', do_api a w = Ret (r, ONone) w' /\ r <> OK /\ c_status (w_ctx w') = SM_ABORTED.
Proof. exact @short_34. Qed.
Print Assumptions C11_message_3_4_partial.
Example C11_example : @limits eh /\ @abides eh /\ @heap eh /\
  (@careful_world eh wi1 /\ permitted M2p (w_ctx wi1) /\ short_of (cs_ecc (the_suite (w_ctx wi1))) [67; 1; 2; 3] /\
   vals (@runs eh [AM2Process true [67; 1; 2; 3]] wi1) = [E_NO_MEM]) /\
  (@careful_world eh wr2 /\ permitted M3p (w_ctx wr2) /\ short_of (cs_tag (the_suite (w_ctx wr2))) [67; 1; 2; 3] /\
   vals (@runs eh [AM3Process true [67; 1; 2; 3]] wr2) = [E_NO_MEM]) /\
  (@careful_world eh wi3 /\ permitted M4p (w_ctx wi3) /\ short_of (cs_tag (the_suite (w_ctx wi3))) [67; 1; 2; 3] /\
   vals (@runs eh [AM4Process true [67; 1; 2; 3]] wi3) = [E_NO_MEM]).
Proof.
  split; [apply eh_ok|]. split; [apply eh_ok|]. split; [exact eh_heap|].
  split; [|split]; (split; [apply careful_demo|]; split; [vm_compute; reflexivity|];
    split; [apply short_all; vm_compute; reflexivity|vm_compute; reflexivity]).
Qed.

(** ** C12.  False for message_3: gen_msg_3 passes one byte more than the buffer has. *)
(** The caller offers 76 bytes, the message needs 77, the code writes 77. *)
Theorem C12_message_3_refuted : exists (E : env) w n,
  limits /\ abides /\ heap /\ careful_world w /\ fit_call (AM3Compose true n) (w_ctx w) /\
  do_api (AM3Compose true n) w = Ub UbMsg3Write.
Proof.
  exists eh, wi2, 76. split; [apply eh_ok|]. split; [apply eh_ok|]. split; [exact eh_heap|]. split; [apply careful_demo|].
  split; [now apply fits_demo|]. vm_compute; reflexivity.
Qed.
Print Assumptions C12_message_3_refuted.
(** Exactly when: the message is one byte longer than the buffer. *)
Theorem C12_message_3_overrun : forall (E : env) n, 0 < n -> forall w, reachable w ->
  do_api (AM3Compose true n) w = Ub UbMsg3Write <->
  exists m w', do_api (AM3Compose true (n + 1)) w = Ret (OK, OBytes m) w' /\ zlen m = n + 1.
Proof. exact @message_3_one_byte. Qed.
Print Assumptions C12_message_3_overrun.
(** Otherwise a message fits the buffer and the length reported is its length; a failing call
    reports no message.  Missing: the case above. *)
Theorem C12_length_partial : forall (E : env) a w r b w', do_api a w = Ret (r, OBytes b) w' ->
  match a with
  | AM1Compose _ n | AM2Compose _ n | AM3Compose _ n | AM4Compose _ n =>
    r <> OK /\ b = [] \/ r = OK /\ 0 < zlen b <= n
  | _ => True
  end.
Proof. exact @compose_bounds. Qed.
Print Assumptions C12_length_partial.
(** No other fault a compose call can have is a write outside the caller's buffer, or any write
    outside an object at all. *)
Theorem C12_no_other_overrun_partial : forall (E : env), limits -> abides -> forall w a u, careful_world w ->
  fit_call a (w_ctx w) -> match kind a with Some M1c | Some M2c | Some M3c | Some M4c => True | _ => False end ->
  do_api a w = Ub u -> u = UbVla /\ cf_stack <> None \/ u = UbMsg3Write /\ kind a = Some M3c.
Proof. exact @compose_faults. Qed.
Print Assumptions C12_no_other_overrun_partial.
Example C12_example : @reachable eh wi2 /\
  (exists m w', @do_api eh (AM3Compose true 77) wi2 = Ret (OK, OBytes m) w' /\ zlen m = 77) /\
  vals (@runs eh [AM3Compose true 75] wi2) = [E_CBOR] /\
  map zlen (outs (@runs eh [AM3Compose true 400] wi2)) = [77] /\
  map zlen (outs (@runs eh [AM4Compose true 10] wr3)) = [9] /\ vals (@runs eh [AM4Compose true 8] wr3) = [E_CBOR].
Proof.
  split; [apply careful_reach, careful_demo|]. split.
  { ex msg3. ex (world_of (@runs eh [AM3Compose true 77] wi2) blank). split; vm_compute; reflexivity. }
  split; [vm_compute; reflexivity|]. split; [vm_compute; reflexivity|]. split; vm_compute; reflexivity.
Qed.

(** ** C13.  False: bytes from the network reach reads and writes outside objects. *)
(** message_1 whose G_X announces 32 bytes and has none: read beyond the message. *)
Theorem C13_message_1_read_refuted : exists (E : env) w msg,
  limits /\ abides /\ heap /\ careful_world w /\ fit_call (AM1Process true msg) (w_ctx w) /\ wf_bytes msg /\
  do_api (AM1Process true msg) w = Ub UbStrRead.
Proof.
  exists eh, wr0, [0; 2; 88; 32]. split; [apply eh_ok|]. split; [apply eh_ok|]. split; [exact eh_heap|]. split; [apply careful_demo|].
  split; [now apply fits_demo|]. split; [apply message_check; vm_compute; reflexivity|]. vm_compute; reflexivity.
Qed.
Print Assumptions C13_message_1_read_refuted.
(** message_1 whose G_X has its length in three bytes: read through a null pointer. *)
Theorem C13_message_1_null_refuted : exists (E : env) w msg,
  limits /\ abides /\ heap /\ careful_world w /\ fit_call (AM1Process true msg) (w_ctx w) /\ wf_bytes msg /\
  do_api (AM1Process true msg) w = Ub UbStrNull.
Proof.
  exists eh, wr0, (0 :: 2 :: 89 :: 0 :: 32 :: repeat 1 32 ++ [5]). split; [apply eh_ok|]. split; [apply eh_ok|]. split; [exact eh_heap|]. split; [apply careful_demo|].
  split; [now apply fits_demo|]. split; [apply message_check; vm_compute; reflexivity|]. vm_compute; reflexivity.
Qed.
Print Assumptions C13_message_1_null_refuted.
(** message_2 with a key identifier of twelve bytes: copied into an array of nine. *)
Definition long_kid (n : Z) : bytes := 1 :: 64 + n :: repeat 7 (Z.to_nat n) ++ [64].
Theorem C13_message_2_write_refuted : exists (E : env) w msg,
  limits /\ abides /\ heap /\ careful_world w /\ fit_call (AM2Process true msg) (w_ctx w) /\ wf_bytes msg /\
  do_api (AM2Process true msg) w = Ub UbKidWrite.
Proof.
  exists eh, wi1, (88 :: 47 :: zeros 32 ++ long_kid 12). split; [apply eh_ok|]. split; [apply eh_ok|]. split; [exact eh_heap|]. split; [apply careful_demo|].
  split; [now apply fits_demo|]. split; [apply message_check; vm_compute; reflexivity|]. vm_compute; reflexivity.
Qed.
Print Assumptions C13_message_2_write_refuted.
(** message_2 whose last EAD value announces 32 bytes and has none. *)
Theorem C13_message_2_read_refuted : exists (E : env) w msg,
  limits /\ abides /\ heap /\ careful_world w /\ fit_call (AM2Process true msg) (w_ctx w) /\ wf_bytes msg /\
  do_api (AM2Process true msg) w = Ub UbEadRead.
Proof.
  exists eh, wi1, (88 :: 38 :: zeros 32 ++ [5; 1; 64; 1; 88; 32]). split; [apply eh_ok|]. split; [apply eh_ok|]. split; [exact eh_heap|]. split; [apply careful_demo|].
  split; [now apply fits_demo|]. split; [apply message_check; vm_compute; reflexivity|]. vm_compute; reflexivity.
Qed.
Print Assumptions C13_message_2_read_refuted.
(** The same two in message_3, where the peer that wrote it has to know the keys. *)
Theorem C13_message_3_refuted : exists (E : env) w msg msg',
  limits /\ abides /\ heap /\ careful_world w /\ (forall m, fit_call (AM3Process true m) (w_ctx w)) /\ wf_bytes msg /\ wf_bytes msg' /\
  do_api (AM3Process true msg) w = Ub UbKidWrite /\ do_api (AM3Process true msg') w = Ub UbEadRead.
Proof.
  exists eh, wr2, (86 :: tl (long_kid 12) ++ zeros 8), (77 :: [1; 64; 1; 88; 32] ++ zeros 8).
  split; [apply eh_ok|]. split; [apply eh_ok|]. split; [exact eh_heap|]. split; [apply careful_demo|].
  split; [intro; now apply fits_demo|]. split; [apply message_check; vm_compute; reflexivity|]. split; [apply message_check; vm_compute; reflexivity|].
  split; vm_compute; reflexivity.
Qed.
Print Assumptions C13_message_3_refuted.
(** Where working buffers are variable-length arrays: an array without elements, for a message_2
    that ends after G_Y and for a message_3 or message_4 that consists of a tag. *)
Theorem C13_stack_refuted : exists (E : env) w2 w3 w4 m2 m3,
  limits /\ abides /\ careful_world w2 /\ careful_world w3 /\ careful_world w4 /\
  (forall m, fit_call (AM2Process true m) (w_ctx w2) /\ fit_call (AM3Process true m) (w_ctx w3) /\ fit_call (AM4Process true m) (w_ctx w4)) /\
  wf_bytes m2 /\ wf_bytes m3 /\ do_api (AM2Process true m2) w2 = Ub UbVla /\
  do_api (AM3Process true m3) w3 = Ub UbVla /\ do_api (AM4Process true m3) w4 = Ub UbVla.
Proof.
  exists es, wi1, wr2, wi3, (88 :: 32 :: zeros 32), (72 :: zeros 8).
  split; [apply es_ok|]. split; [apply es_ok|]. split; [is_careful es li1|]. split; [is_careful es lr2|]. split; [is_careful es li3|].
  split; [intro; split; [|split]; apply fitb_ok; reflexivity|]. split; [apply message_check; vm_compute; reflexivity|]. split; [apply message_check; vm_compute; reflexivity|].
  split; [|split]; vm_compute; reflexivity.
Qed.
Print Assumptions C13_stack_refuted.
(** With CONFIG_LIBEDHOC_MAX_NR_OF_EAD_TOKENS = 1, outside [limits], three EAD items of a
    message_2 overrun the array of two. *)
Theorem C13_few_tokens_refuted : exists (E : env) w msg,
  cf_max_ead = 1 /\ abides /\ heap /\ careful_world w /\ fit_call (AM2Process true msg) (w_ctx w) /\ wf_bytes msg /\
  do_api (AM2Process true msg) w = Ub UbWrite.
Proof.
  exists (null_env sw_one_ead), wi1, (88 :: 38 :: zeros 32 ++ [5; 1; 64; 1; 2; 3]). split; [reflexivity|]. split; [apply null_abides; constructor|].
  split; [exact eh_heap|]. split; [is_careful (null_env sw_one_ead) li1|].
  split; [apply fitb_ok; reflexivity|]. split; [apply message_check; vm_compute; reflexivity|]. vm_compute; reflexivity.
Qed.
Print Assumptions C13_few_tokens_refuted.
(** What holds: for all bytes received, all histories and all callbacks that respect their
    contracts, the faults above are the only ones.  [may] lists them per call. *)
Theorem C13_only_these_partial : forall (E : env), limits -> abides -> forall w a u, careful_world w ->
  fit_call a (w_ctx w) -> do_api a w = Ub u -> may a (w_ctx w) u.
Proof. exact @careful_call. Qed.
Print Assumptions C13_only_these_partial.
(** With working buffers on the heap there is none in message_4, in a message_1 that begins with
    its four mandatory items, in configuration and in exports. *)
Theorem C13_heap_safe : forall (E : env), limits -> abides -> cf_stack = None -> forall w a, careful_world w ->
  fit_call a (w_ctx w) ->
  match a with
  | AM1Process _ msg => opens_message_1 msg
  | AM2Process _ _ | AM3Process _ _ | AM3Compose _ _ => False
  | _ => True
  end -> exists r w', do_api a w = Ret r w'.
Proof. exact @heap_safe. Qed.
Print Assumptions C13_heap_safe.
Example C13_example : @limits eh /\ @abides eh /\ @cf_stack eh = None /\ @careful_world eh wi3 /\
  @fit_call eh (AM4Process true [70; 1; 2; 3]) (w_ctx wi3) /\
  opens_message_1 (cbor_seq (message_1_items 0 [2] (zeros 32) (CNum 5) []) ++ [255]) /\
  vals (@runs eh [AM1Process true (cbor_seq (message_1_items 0 [2] (zeros 32) (CNum 5) []) ++ [255])] wr0) = [OK] /\
  vals (@runs eh [AM1Process true [255; 255]] wr0) = [E_MSG1] /\
  vals (@runs eh [AM2Process true msg2] wi1) = [OK] /\ vals (@runs eh [AM3Process true msg3] wr2) = [OK].
Proof.
  split; [apply eh_ok|]. split; [apply eh_ok|]. split; [reflexivity|]. split; [apply careful_demo|]. split; [now apply fits_demo|].
  split. { exists 0, [2], (zeros 32), (CNum 5), [255]. repeat split; try (cbn; lia). repeat constructor; cbn; lia. }
  split; [vm_compute; reflexivity|]. split; [vm_compute; reflexivity|]. split; vm_compute; reflexivity.
Qed.

(** ** C30.  False: at most three items are read and what follows is ignored. *)
Definition four_ead : list ead := [(1, None); (2, None); (3, Some [9]); (4, None)].
Theorem C30_surplus_refuted : exists (E : env) c l msg w',
  f_process (c_ead c) <> None /\ Forall ead_ok l /\ zlen l = 4 /\
  msg = cbor_seq (message_1_items 0 [2] (zeros 32) (CNum 5) l) /\
  message_1_process true msg (Wd c []) = Ret OK w' /\ received MSG_1 (w_tr w') = firstn 3 l.
Proof.
  exists eh, (w_ctx wr0), four_ead. ex (cbor_seq (message_1_items 0 [2] (zeros 32) (CNum 5) four_ead)).
  ex (world_of (@runs eh [AM1Process true (cbor_seq (message_1_items 0 [2] (zeros 32) (CNum 5) four_ead))] (Wd (w_ctx wr0) [])) blank).
  split; [discriminate|]. split; [repeat constructor; cbn; lia|]. split; [reflexivity|]. split; [vm_compute; reflexivity|]. split; vm_compute; reflexivity.
Qed.
Print Assumptions C30_surplus_refuted.
(** Bytes that are no EAD item are ignored as well, here 255 in message_4. *)
Theorem C30_not_ead_refuted : exists (E : env) w msg w', careful_world w /\
  f_process (c_ead (w_ctx w)) <> None /\ carries msg [Bstr ([1; 255] ++ zeros 8)] /\
  do_api (AM4Process true msg) w = Ret (OK, ONone) w' /\
  (exists e kid iv aad, w_tr w' = e ++ w_tr w /\ In (EvDecrypt kid iv aad ([1; 255] ++ zeros 8) OK [1; 255]) e /\ received MSG_4 e = [(1, None)]).
Proof.
  exists eh, wi3, (74 :: [1; 255] ++ zeros 8). ex (world_of (@runs eh [AM4Process true (74 :: [1; 255] ++ zeros 8)] wi3) blank).
  split; [apply careful_demo|]. split; [discriminate|]. split; [apply (@dec_carries eh); [apply message_check|]; vm_compute; reflexivity|].
  split; [vm_compute; reflexivity|].
  ex (@events_of eh [AM4Process true (74 :: [1; 255] ++ zeros 8)] wi3). do 3 eexists. split; [vm_compute; reflexivity|].
  split; [|vm_compute; reflexivity]. repeat (first [left; reflexivity | right]).
Qed.
Print Assumptions C30_not_ead_refuted.
(** Without a callback for received EAD, message_1 is accepted whatever EAD it carries. *)
Theorem C30_no_callback_refuted : exists (E : env) c l w', Forall ead_ok l /\ l <> [] /\
  message_1_process true (cbor_seq (message_1_items 0 [2] (zeros 32) (CNum 5) l)) (Wd c []) = Ret OK w' /\ received MSG_1 (w_tr w') = [].
Proof.
  exists eh. ex (w_ctx (world_of (@runs eh (setup 2 0) blank) blank)). exists four_ead.
  ex (world_of (@runs eh [AM1Process true (cbor_seq (message_1_items 0 [2] (zeros 32) (CNum 5) four_ead))] (Wd (w_ctx (world_of (@runs eh (setup 2 0) blank) blank)) [])) blank).
  split; [repeat constructor; cbn; lia|]. split; [discriminate|]. split; vm_compute; reflexivity.
Qed.
Print Assumptions C30_no_callback_refuted.
(** What holds: up to three items of a message_1 all reach the callback, and more than the
    application configured are refused.  Missing: four items and more, and other bytes. *)
Theorem C30_message_1_partial : forall (E : env) nn c t method suites gx ci l y w' e, 0 <= cs_ecc (my_suite c) ->
  int32 method -> 1 <= zlen suites <= 3 -> Forall int32 suites -> zlen gx < 2 ^ 64 -> cid_within (2 ^ 64 - 1) ci ->
  Forall ead_ok l -> zlen l <= 3 -> f_process (c_ead c) <> None ->
  message_1_process nn (cbor_seq (message_1_items method suites gx ci l)) (Wd c t) = Ret y w' -> w_tr w' = e ++ t ->
  (y = OK -> received MSG_1 e = l) /\ (0 <= cf_max_ead < zlen l -> y <> OK).
Proof. exact @all_eads_1. Qed.
Print Assumptions C30_message_1_partial.
Theorem C30_message_4_partial : forall (E : env) nn c t msg c' e, sizes_ok (the_suite c) -> wf_bytes msg ->
  message_4_process nn msg (Wd c t) = Ret OK (Wd c' (e ++ t)) ->
  exists key iv ct p, carries msg [Bstr ct] /\ decrypted e key iv (aad (th_of c)) ct p /\
    (f_process (c_ead c) <> None -> cf_max_ead <> 0 -> forall l, Forall ead_ok l -> zlen l <= 3 -> p = cbor_seq (flat_map ead_items l) ->
     received MSG_4 e = l).
Proof. exact @all_eads_4. Qed.
Print Assumptions C30_message_4_partial.
Example C30_example :
  f_process (c_ead (w_ctx wr0)) <> None /\ cs_ecc (my_suite (w_ctx wr0)) = 32 /\
  (let m := cbor_seq (message_1_items 0 [2] (zeros 32) (CNum 5) (firstn 3 four_ead)) in
   vals (@runs eh [AM1Process true m] wr0) = [OK] /\ received MSG_1 (@events_of eh [AM1Process true m] wr0) = firstn 3 four_ead /\
   vals (@runs (null_env sw_one_ead) [AM1Process true m] wr0) = [E_TOO_SMALL]) /\
  (let p := cbor_seq (flat_map ead_items (firstn 3 four_ead)) in let m := cbor (Bstr (p ++ zeros 8)) in
   vals (@runs eh [AM4Process true m] wi3) = [OK] /\ received MSG_4 (@events_of eh [AM4Process true m] wi3) = firstn 3 four_ead).
Proof.
  split; [discriminate|]. split; [reflexivity|]. split; cbv zeta; [split; [|split]|split]; vm_compute; reflexivity.
Qed.

(** ** C34.  False: the key is erased only where it serves in a second key agreement. *)
(** With signatures on both sides both parties still hold it after the handshake. *)
Theorem C34_signatures_refuted : exists (E : env) wi wr ki kr pub,
  limits /\ abides /\ careful_world wi /\ careful_world wr /\
  c_status (w_ctx wi) = SM_COMPLETED /\ c_status (w_ctx wr) = SM_COMPLETED /\
  In (EvMkPair ki OK (priv_of (w_ctx wi)) pub) (w_tr wi) /\ In (EvMkPair kr OK (priv_of (w_ctx wr)) pub) (w_tr wr) /\
  priv_of (w_ctx wi) <> [] /\ priv_of (w_ctx wr) <> [].
Proof.
  exists eh, wi3, wr3, [0], [0], (zeros 32).
  split; [apply eh_ok|]. split; [apply eh_ok|]. split; [apply careful_demo|]. split; [apply careful_demo|].
  split; [reflexivity|]. split; [reflexivity|].
  split; [apply in_find; vm_compute; reflexivity|]. split; [apply in_find; vm_compute; reflexivity|]. split; vm_compute; discriminate.
Qed.
Print Assumptions C34_signatures_refuted.
(** What holds: where the static key of the peer is a Diffie-Hellman key, a successful message_2
    (initiator) or message_3 (responder) leaves no private key, and none comes back in that
    session.  Missing: the methods above, and the copies in the application's callbacks. *)
Theorem C34_erased_partial : forall (E : env) a k w r w1 l rs w', reachable w ->
  (k = M2p /\ responder_static (c_chosen_method (w_ctx w)) = true \/ k = M3p /\ initiator_static (c_chosen_method (w_ctx w)) = true) ->
  kind a = Some k -> do_api a w = Ret (OK, r) w1 -> ~ In AInit l -> ~ In ADeinit l -> runs l w1 = Ret rs w' ->
  no_private_key (w_ctx w1) /\ no_private_key (w_ctx w').
Proof. exact @key_erased. Qed.
Print Assumptions C34_erased_partial.
(** Both parties with static Diffie-Hellman keys, method 3. *)
Definition li1s : list api := Eval vm_compute in h_i1 (setup 1 3).
Definition lr2s : list api := Eval vm_compute in @h_r2 eh (setup 1 3) (setup 2 3).
Definition wi1s : world := Eval vm_compute in world_of (@runs eh li1s blank) blank.
Definition wr2s : world := Eval vm_compute in world_of (@runs eh lr2s blank) blank.
Definition msg2s : bytes := Eval vm_compute in @h_m2 eh (setup 1 3) (setup 2 3).
Definition msg3s : bytes := Eval vm_compute in @h_m3 eh (setup 1 3) (setup 2 3).
Example C34_example : @reachable eh wi1s /\ @reachable eh wr2s /\
  responder_static (c_chosen_method (w_ctx wi1s)) = true /\ initiator_static (c_chosen_method (w_ctx wr2s)) = true /\
  priv_of (w_ctx wi1s) = repeat 7 32 /\ priv_of (w_ctx wr2s) = repeat 7 32 /\
  vals (@runs eh [AM2Process true msg2s; AM3Compose true 400; AM4Process true [72; 0; 0; 0; 0; 0; 0; 0; 0]] wi1s) = [OK; OK; OK] /\
  vals (@runs eh [AM3Process true msg3s; AM4Compose true 400] wr2s) = [OK; OK].
Proof.
  split; [apply careful_reach; is_careful eh li1s|]. split; [apply careful_reach; is_careful eh lr2s|].
  split; [reflexivity|]. split; [reflexivity|]. split; [vm_compute; reflexivity|]. split; [vm_compute; reflexivity|]. split; vm_compute; reflexivity.
Qed.

(** ** C35.  False: neither function asks for the role (message_4.c 571-761, 772-934). *)
(** After composing messages 1 and 3 the initiator composes a message_4 too. *)
Theorem C35_initiator_composes_refuted : exists (E : env) l r1 x w', limits /\ abides /\
  careful (AInit :: l) blank /\ ~ In AInit l /\ runs (AInit :: l) blank = Ret (r1 ++ [x]) w' /\
  succeeded r1 = [M1c; M2p; M3c] /\ kind (rcall x) = Some M4c /\ rval x = OK.
Proof.
  exists eh. ex (tl li3 ++ [AM4Compose true 400]). ex (rs_of (@runs eh li3 blank)).
  ex (last (rs_of (@runs eh (li3 ++ [AM4Compose true 400]) blank)) (ADeinit, (OK, ONone))).
  ex (world_of (@runs eh (li3 ++ [AM4Compose true 400]) blank) blank).
  split; [apply eh_ok|]. split; [apply eh_ok|]. split; [apply carefulb_ok; vm_compute; reflexivity|].
  split; [cbn [In]; intuition discriminate|]. split; [vm_compute; reflexivity|]. split; [vm_compute; reflexivity|]. split; vm_compute; reflexivity.
Qed.
Print Assumptions C35_initiator_composes_refuted.
(** After composing message 2 the responder processes a message_4 too, here the one it could
    have sent itself. *)
Theorem C35_responder_processes_refuted : exists (E : env) l r1 x w', limits /\ abides /\
  careful (AInit :: l) blank /\ ~ In AInit l /\ runs (AInit :: l) blank = Ret (r1 ++ [x]) w' /\
  succeeded r1 = [M1p; M2c; M3p] /\ kind (rcall x) = Some M4p /\ rval x = OK.
Proof.
  exists eh. ex (tl lr3 ++ [AM4Process true (72 :: zeros 8)]). ex (rs_of (@runs eh lr3 blank)).
  ex (last (rs_of (@runs eh (lr3 ++ [AM4Process true (72 :: zeros 8)]) blank)) (ADeinit, (OK, ONone))).
  ex (world_of (@runs eh (lr3 ++ [AM4Process true (72 :: zeros 8)]) blank) blank).
  split; [apply eh_ok|]. split; [apply eh_ok|]. split; [apply carefulb_ok; vm_compute; reflexivity|].
  split; [cbn [In]; intuition discriminate|]. split; [vm_compute; reflexivity|]. split; [vm_compute; reflexivity|]. split; vm_compute; reflexivity.
Qed.
Print Assumptions C35_responder_processes_refuted.
(** What holds: message_4 follows a completed handshake, and there is at most one, sent or
    received, per session.  Missing: which of the two a party may do. *)
Theorem C35_message_4_partial : forall (E : env) w0 l rs w' r1 x r2, reachable w0 -> ~ In AInit l ->
  runs (AInit :: l) w0 = Ret rs w' -> rs = r1 ++ x :: r2 ->
  kind (rcall x) = Some M4c \/ kind (rcall x) = Some M4p -> rval x = OK ->
  full_handshake (succeeded r1) /\
  Forall (fun y => kind (rcall y) = Some M4c \/ kind (rcall y) = Some M4p -> rval y <> OK) r2.
Proof. exact @once_4. Qed.
Print Assumptions C35_message_4_partial.
Example C35_example : vals (@runs eh (lr3 ++ [AM4Compose true 400; AM4Compose true 400; AM4Process true (72 :: zeros 8)]) blank) =
  vals (@runs eh lr3 blank) ++ [OK; E_BAD_STATE; E_BAD_STATE].
Proof. vm_compute; reflexivity. Qed.

(** ** C42.  False: bytes after the byte string are ignored. *)
Theorem C42_trailing_bytes_refuted : exists (E : env) w2 w3 w4 m2 m3 m4 x2 x3 x4, limits /\ abides /\
  careful_world w2 /\ careful_world w3 /\ careful_world w4 /\
  do_api (AM2Process true (m2 ++ [255])) w2 = Ret (OK, ONone) x2 /\
  do_api (AM3Process true (m3 ++ [255])) w3 = Ret (OK, ONone) x3 /\
  do_api (AM4Process true (m4 ++ [255])) w4 = Ret (OK, ONone) x4.
Proof.
  exists eh, wi1, wr2, wi3. ex msg2. ex msg3. ex (72 :: zeros 8).
  ex (world_of (@runs eh [AM2Process true msg2] wi1) blank). ex (world_of (@runs eh [AM3Process true msg3] wr2) blank).
  ex (world_of (@runs eh [AM4Process true (72 :: zeros 8)] wi3) blank).
  split; [apply eh_ok|]. split; [apply eh_ok|]. split; [apply careful_demo|]. split; [apply careful_demo|]. split; [apply careful_demo|].
  split; [|split]; vm_compute; reflexivity.
Qed.
Print Assumptions C42_trailing_bytes_refuted.
(** Always: the call does the same with any bytes appended. *)
Theorem C42_trailing_bytes_ignored : forall (E : env) b x w, zlen b < 2 ^ 64 ->
  (0 <= cs_ecc (the_suite (w_ctx w)) <= zlen b ->
   do_api (AM2Process true (cbor (Bstr b) ++ x)) w = do_api (AM2Process true (cbor (Bstr b))) w) /\
  do_api (AM3Process true (cbor (Bstr b) ++ x)) w = do_api (AM3Process true (cbor (Bstr b))) w /\
  do_api (AM4Process true (cbor (Bstr b) ++ x)) w = do_api (AM4Process true (cbor (Bstr b))) w.
Proof. exact @tail_all. Qed.
Print Assumptions C42_trailing_bytes_ignored.
(** What holds: an accepted message begins with a byte string. *)
Theorem C42_byte_string_partial : forall (E : env) a msg w r w',
  a = AM2Process true msg \/ a = AM3Process true msg \/ a = AM4Process true msg ->
  wf_bytes msg -> do_api a w = Ret (OK, r) w' -> exists b, carries msg [Bstr b].
Proof. exact @accepted_one. Qed.
Print Assumptions C42_byte_string_partial.
Example C42_example : wf_bytes msg2 /\ wf_bytes msg3 /\ vals (@runs eh [AM2Process true msg2] wi1) = [OK] /\
  vals (@runs eh [AM2Process true (msg2 ++ [1; 2; 3])] wi1) = [OK] /\ vals (@runs eh [AM2Process true (5 :: msg2)] wi1) = [E_TOO_SMALL] /\
  vals (@runs eh [AM3Process true msg3] wr2) = [OK] /\ vals (@runs eh [AM4Process true [8]] wi3) = [E_MSG4].
Proof.
  split; [apply message_check; vm_compute; reflexivity|]. split; [apply message_check; vm_compute; reflexivity|].
  split; [vm_compute; reflexivity|]. split; [vm_compute; reflexivity|]. split; [vm_compute; reflexivity|]. split; vm_compute; reflexivity.
Qed.
