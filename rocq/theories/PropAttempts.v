(** Property C71: one attempt per message, and what a session asks of its callbacks at most.
    Vocabulary in Spec.v and Attempts.v. *)
From Verif Require Import Monad Api Common Exporter History Spec Attempts AttemptProofs Demo DemoX DemoZ PropReply PropExport.

(** A demonstration initiator gets a wrong message 4; the right one is then refused. *)
Example attempt_cases : @reachable e0 done_i /\
  exists r w1, @do_api e0 (AM4Process true [255]) done_i = Ret r w1 /\ w1 <> done_i /\ fst r <> OK /\
  @do_api e0 (AM4Process true (repeat 0 9)) w1 = Ret (E_BAD_STATE, ONone) w1.
Proof.
  split; [exact (proj1 done_reachable)|].
  ex (match @do_api e0 (AM4Process true [255]) done_i with Ret r _ => r | Ub _ => (0, ONone) end). exists dead_i.
  split; [vm_compute; reflexivity|]. split; [intro X; apply (f_equal (fun w => c_status (w_ctx w))) in X; vm_compute in X; discriminate X|].
  split; [vm_compute; discriminate|vm_compute; reflexivity].
Qed.
(** The demonstration parties reach the limits. *)
Definition opened : world := Eval vm_compute in world_of (@runs e0 [AInit] blank) blank.
Example count_cases : @reachable e0 opened /\ w_tr opened = [] /\
  (exists rs, @runs e0 (tl hist_i3) opened = Ret rs done_i) /\ ~ In AInit (tl hist_i3) /\
  map (fun P => count P (w_tr done_i)) [makes_pair; signs; verifies; encrypts; decrypts; fetches; checks] = [1; 1; 1; 1; 0; 1; 1] /\
  (exists rs, @runs e0 (tl hist_r3) opened = Ret rs done_r) /\ ~ In AInit (tl hist_r3) /\
  map (fun P => count P (w_tr done_r)) [makes_pair; signs; verifies; encrypts; decrypts; fetches; checks] = [1; 1; 1; 0; 1; 1; 1].
Proof.
  split; [reach [AInit] opened|]. split; [reflexivity|].
  split; [ex (rs_of (@runs e0 (tl hist_i3) opened)); vm_compute; reflexivity|]. split; [cbn; intuition discriminate|]. split; [vm_compute; reflexivity|].
  split; [ex (rs_of (@runs e0 (tl hist_r3) opened)); vm_compute; reflexivity|]. split; [cbn; intuition discriminate|vm_compute; reflexivity].
Qed.

(** ** C71 *)
(** Once a call for a message did anything at all, whatever it answered, every later call for the
    same message is refused and does nothing, until the context is given up. *)
Theorem C71_message_once : forall (E : env) w a k r w1 l rs w2 b j s w3,
  reachable w -> kind a = Some k -> kind b = Some j -> message_of k = message_of j ->
  do_api a w = Ret r w1 -> w1 <> w -> ~ In AInit l -> ~ In ADeinit l -> runs l w1 = Ret rs w2 -> do_api b w2 = Ret s w3 ->
  w3 = w2 /\ (fst s = E_BAD_STATE \/ fst s = E_INVALID_ARG).
Proof. exact (@message_once). Qed.
Print Assumptions C71_message_once.
(** Until the context is initialised again, and whatever is called in whatever order and with
    whatever outcome: at most one key pair, one signature, one signature verification, two uses
    of the cipher, one fetched credential, one authenticated peer and four calls about external
    authorization data. *)
Theorem C71_counts : forall (E : env) l w rs w' e,
  reachable w -> ~ In AInit l -> runs l w = Ret rs w' -> w_tr w' = e ++ w_tr w ->
  count makes_pair e <= 1 /\ count signs e <= 1 /\ count verifies e <= 1 /\ count encrypts e + count decrypts e <= 2 /\
  count fetches e <= 1 /\ count checks e <= 1 /\ count ead_asked e <= 4.
Proof. exact (@counts). Qed.
Print Assumptions C71_counts.
