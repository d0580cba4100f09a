(** Property C75: the size of the caller's buffer decides whether the answer fits, and nothing
    else.  Vocabulary in Spec.v and Api.v. *)
From Verif Require Import Monad Api Common Exporter History Spec RoomProofs Demo DemoX DemoZ PropReply PropExport.

(** The four states of the demonstration session in which a message is composed, with the sizes
    of the messages; each also fits a buffer of exactly its size and not one byte less. *)
Definition at_i (k : nat) : world := world_of (@runs e0 (firstn k hist_i3) blank) blank.
Definition at_r (k : nat) : world := world_of (@runs e0 (firstn k hist_r3) blank) blank.
Definition answer (a : api) (w : world) : option (Z * Z) :=
  match @do_api e0 a w with Ret (r, OBytes b) _ => Some (r, zlen b) | Ret _ _ => None | Ub _ => None end.
Definition four : list ((Z -> api) * world) := Eval vm_compute in
  [(AM1Compose true, at_i 7); (AM2Compose true, at_r 8); (AM3Compose true, at_i 9); (AM4Compose true, done_r)].
Definition sizes : list Z := Eval vm_compute in map (fun x => match answer (fst x 200) (snd x) with Some (_, k) => k | None => 0 end) four.
Example room_cases :
  sizes = [37; 141; 113; 9] /\
  map (fun x => answer (fst x 200) (snd x)) four = map (fun k => Some (OK, k)) sizes /\
  map (fun x => answer (fst (fst x) (snd x)) (snd (fst x))) (combine four sizes) = map (fun k => Some (OK, k)) sizes /\
  map (fun x => answer (fst (fst x) (snd x - 1)) (snd (fst x))) (combine four sizes) = [Some (E_CBOR, 0); Some (E_CBOR, 0); None; Some (E_CBOR, 0)] /\
  map (fun x => answer (fst x 2) (snd x)) four = repeat (Some (E_CBOR, 0)) 4.
Proof. repeat split; vm_compute; reflexivity. Qed.
Example room_oscore : exists o w', @do_api e0 (AOscore true 16 8 64 64) done_i = Ret (OK, OOscore o) w' /\
  zlen (os_sid o) = 3 /\ zlen (os_rid o) = 1.
Proof.
  ex (match @do_api e0 (AOscore true 16 8 64 64) done_i with Ret (_, OOscore o) _ => o | _ => osc0 end).
  ex (match @do_api e0 (AOscore true 16 8 64 64) done_i with Ret _ w' => w' | _ => blank end). repeat split; vm_compute; reflexivity.
Qed.

(** ** C75 *)
Definition compose_call (f : Z -> api) : Prop := In f [AM1Compose true; AM2Compose true; AM3Compose true; AM4Compose true].
(** A call that produced a message does the same, down to the callback invocations and the final
    context, with every buffer that holds the message. *)
Theorem C75_room : forall (E : env) f n w msg w', compose_call f -> do_api (f n) w = Ret (OK, OBytes msg) w' ->
  forall n', n' <> 0 -> zlen msg <= n' -> do_api (f n') w = Ret (OK, OBytes msg) w'.
Proof. exact (fun E f n w msg w' F X n' N => proj1 (@size_same E f n n' w msg w' F X N)). Qed.
Print Assumptions C75_room.
(** With a buffer too small for it the call reports the encoding error and returns no message.
    Missing: message 3 and a buffer one byte too small, where the code writes past the buffer. *)
Theorem C75_no_room_partial : forall (E : env) f n w msg w', compose_call f -> do_api (f n) w = Ret (OK, OBytes msg) w' ->
  forall n', n' <> 0 -> n' < zlen msg ->
  (exists w'', do_api (f n') w = Ret (E_CBOR, OBytes []) w'') \/
  (f = AM3Compose true /\ n' = zlen msg - 1 /\ do_api (f n') w = Ub UbMsg3Write).
Proof. exact (fun E f n w msg w' F X n' N => proj2 (@size_same E f n n' w msg w' F X N)). Qed.
Print Assumptions C75_no_room_partial.
Theorem C75_no_room_refuted : exists (E : env) w n msg w', reachable w /\
  do_api (AM3Compose true n) w = Ret (OK, OBytes msg) w' /\ do_api (AM3Compose true (zlen msg - 1)) w = Ub UbMsg3Write.
Proof.
  exists e0. ex (at_i 9). exists 200. ex (match @do_api e0 (AM3Compose true 200) (at_i 9) with Ret (_, OBytes b) _ => b | _ => [] end).
  ex (match @do_api e0 (AM3Compose true 200) (at_i 9) with Ret _ w' => w' | _ => blank end).
  split; [reach (firstn 9 hist_i3) (at_i 9)|]. split; vm_compute; reflexivity.
Qed.
Print Assumptions C75_no_room_refuted.
(** The same for the buffers of the OSCORE sender and recipient identifiers.  (The sizes given
    for the master secret and salt are not room but the sizes to derive.) *)
Theorem C75_oscore : forall (E : env) n_sec n_salt n_sid n_rid w o w',
  do_api (AOscore true n_sec n_salt n_sid n_rid) w = Ret (OK, OOscore o) w' ->
  forall n_sid' n_rid', n_sid' <> 0 -> n_rid' <> 0 -> zlen (os_sid o) <= n_sid' -> zlen (os_rid o) <= n_rid' ->
  do_api (AOscore true n_sec n_salt n_sid' n_rid') w = Ret (OK, OOscore o) w'.
Proof. exact (fun E a b c d w o w' X c' d' => @oscore_size E a b c d c' d' w o w' X). Qed.
Print Assumptions C75_oscore.
