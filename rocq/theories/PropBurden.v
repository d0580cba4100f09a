(** Property C80: a received message claims no more memory than its own length.  Vocabulary in
    Burden.v. *)
From Verif Require Import Monad Api Common Exporter History Spec Rfc Wire Received Safety MemProofs MemProofs2 Burden BurdenProofs
  Demo DemoX DemoZ DemoS PropMem.

(** Messages 2 and 3 of the demonstration sessions meet the hypotheses, and make the library ask
    for buffers of both kinds. *)
Definition last_msg (l : list api) : bytes := match rev l with AM2Process _ m :: _ | AM3Process _ m :: _ | AM4Process _ m :: _ => m | _ => [] end.
Definition m2 : bytes := Eval vm_compute in last_msg li2.
Definition m3 : bytes := Eval vm_compute in last_msg lr3.
Definition asked_for (a : api) (w : world) : list (buf * Z) :=
  let w' := world_of (@runs eh [a] w) blank in
  rev (flat_map (fun x => match x with EvAlloc b n _ => [(b, n)] | _ => [] end) (firstn (length (w_tr w') - length (w_tr w)) (w_tr w'))).
Ltac well := apply message_check; vm_compute; reflexivity.
Ltac opens := eapply reaches_of; [apply (@dec_carries eh); [well|vm_compute; reflexivity]|vm_compute; discriminate].
Example burden_cases :
  received (AM2Process true m2) (the_suite (w_ctx wi1)) = Some (m2, 32) /\ sized (w_ctx wi1) /\ wf_bytes m2 /\ reaches 32 m2 /\
  vals (@runs eh [AM2Process true m2] wi1) = [OK] /\
  received (AM3Process true m3) (the_suite (w_ctx wr2)) = Some (m3, 8) /\ sized (w_ctx wr2) /\ wf_bytes m3 /\ reaches 8 m3 /\
  vals (@runs eh [AM3Process true m3] wr2) = [OK] /\
  (zlen m2, firstn 4 (asked_for (AM2Process true m2) wi1), own_room (w_ctx wi1)) =
    (105, [(BCiphertext, 71); (BTh, 68); (BKeystream, 71); (BInfo, 37)], 221).
Proof.
  split; [reflexivity|]. split; [vm_compute; intuition discriminate|]. split; [well|]. split; [opens|]. split; [vm_compute; reflexivity|].
  split; [reflexivity|]. split; [vm_compute; intuition discriminate|]. split; [well|]. split; [opens|]. split; [vm_compute; reflexivity|].
  vm_compute; reflexivity.
Qed.
(** Together these four are 247 bytes.  The responder of that session accepted a first message. *)
Example burden_sums :
  fold_right Z.add 0 (map snd (firstn 4 (asked_for (AM2Process true m2) wi1))) = 247 /\ 247 <= requests (AM2Process true m2) * 221 /\
  (exists k m, nth k lr2 AInit = AM1Process true m /\ m <> [] /\ nth k (vals (@runs eh lr2 blank)) 1 = OK).
Proof.
  split; [vm_compute; reflexivity|]. split; [vm_compute; discriminate|].
  first [exists 6%nat; eexists; split; [vm_compute; reflexivity|split; [discriminate|vm_compute; reflexivity]]
        |exists 7%nat; eexists; split; [vm_compute; reflexivity|split; [discriminate|vm_compute; reflexivity]]
        |exists 8%nat; eexists; split; [vm_compute; reflexivity|split; [discriminate|vm_compute; reflexivity]]].
Qed.

(** ** C80 *)
(** False without a condition: a message 2 of two bytes makes the library ask for a buffer of
    almost all of the address space, since lengths are subtracted without a comparison. *)
Theorem C80_short_refuted : exists (E : env) w msg k r w',
  received (AM2Process true msg) (the_suite (w_ctx w)) = Some (msg, k) /\ sized (w_ctx w) /\ 0 <= k /\ wf_bytes msg /\ zlen msg = 2 /\ reachable w /\
  do_api (AM2Process true msg) w = Ret r w' /\ exists n ok, w_tr w' = EvAlloc BCiphertext n ok :: w_tr w /\ 2 ^ 63 < n.
Proof.
  exists eh, wi1, [65; 1], 32. ex (E_NO_MEM, ONone). ex (world_of (@runs eh [AM2Process true [65; 1]] wi1) blank).
  split; [reflexivity|]. split; [vm_compute; intuition discriminate|]. split; [lia|]. split; [well|]. split; [reflexivity|].
  split; [let rs := eval vm_compute in (rs_of (@runs eh li1 blank)) in refine (reach_run eh li1 rs wi1 _); vm_compute; reflexivity|]. split; [vm_compute; reflexivity|]. exists (2 ^ 64 - 31), false. split; [vm_compute; reflexivity|lia].
Qed.
Print Assumptions C80_short_refuted.
(** What holds, for a message whose byte string is as long as the part that is subtracted ([k]:
    the ephemeral key in message 2, the tag in messages 3 and 4): every buffer for what was
    received is at least [k] bytes shorter than the message. *)
Theorem C80_buffers_partial : forall (E : env) a w r w' msg k,
  received a (the_suite (w_ctx w)) = Some (msg, k) -> 0 <= k -> wf_bytes msg -> reaches k msg ->
  do_api a w = Ret r w' -> exists e, w_tr w' = e ++ w_tr w /\
  forall b n ok, In (EvAlloc b n ok) e -> takes_received b = true -> 0 <= n /\ n + k <= zlen msg.
Proof. exact received_fits. Qed.
Print Assumptions C80_buffers_partial.
(** And until the application has been asked about the peer's credentials, no buffer of any kind
    is larger than the message or than what the own settings account for. *)
Theorem C80_until_asked_partial : forall (E : env) a w r w' msg k,
  received a (the_suite (w_ctx w)) = Some (msg, k) -> sized (w_ctx w) -> 0 <= k -> wf_bytes msg -> reaches k msg ->
  do_api a w = Ret r w' -> exists e, w_tr w' = e ++ w_tr w /\
  forall later b n ok before, e = later ++ EvAlloc b n ok :: before -> unasked before ->
  n <= Z.max (zlen msg) (own_room (w_ctx w)).
Proof. exact until_fits. Qed.
Print Assumptions C80_until_asked_partial.
(** Nor do all these buffers together take more than a fixed number of times that. *)
Theorem C80_together_partial : forall (E : env) a w r w' msg k,
  received a (the_suite (w_ctx w)) = Some (msg, k) -> sized (w_ctx w) -> 0 <= k -> wf_bytes msg -> reaches k msg ->
  do_api a w = Ret r w' -> exists e, w_tr w' = e ++ w_tr w /\
  forall later before, e = later ++ before -> unasked before ->
  claimed before <= requests a * Z.max (zlen msg) (own_room (w_ctx w)).
Proof. exact total_fits. Qed.
Print Assumptions C80_together_partial.
(** A first message, which anybody can send, makes the library ask for no buffer at all. *)
Theorem C80_first_message : forall (E : env) p m w r w', do_api (AM1Process p m) w = Ret r w' ->
  exists e, w_tr w' = e ++ w_tr w /\ forall b n ok, ~ In (EvAlloc b n ok) e.
Proof. exact first_none. Qed.
Print Assumptions C80_first_message.
