(** Property C79: the work of a call and of a session is bounded, whatever arrives.  Vocabulary in
    Work.v. *)
From Verif Require Import Monad Api Common Exporter History Spec Burden Work Early WorkProofs Demo DemoX DemoZ PropReply PropExport.

(** What the calls of two demonstration sessions ask for: signatures at both ends, and static keys
    at both ends. *)
Definition spent (a : api) (w : world) : list (work * nat) :=
  match @do_api e0 a w with
  | Ret _ w' => let e := firstn (length (w_tr w') - length (w_tr w)) (w_tr w') in
                filter (fun x => negb (Nat.eqb (snd x) 0)) (map (fun k => (k, amount k e)) works)
  | Ub _ => []
  end.
Definition spends (l : list api) (k : nat) : list (work * nat) := spent (nth k l AInit) (world_of (@runs e0 (firstn k l) blank) blank).
Definition static_i := Eval vm_compute in @h_i3 e0 (setup 1 3) (setup 2 3).
Definition static_r := Eval vm_compute in @h_r3 e0 (setup 1 3) (setup 2 3).
Example work_cases :
  vals (@runs e0 static_i blank) = repeat OK 10 /\ vals (@runs e0 static_r blank) = repeat OK 10 /\
  map (spends static_i) [7; 8; 9]%nat =
    [[(WMakePair, 1); (WHash, 1); (WImport, 1); (WDestroy, 1); (WBlock, 1)];
     [(WAgree, 2); (WExtract, 2); (WExpand, 3); (WHash, 2); (WImport, 7); (WDestroy, 7); (WTrust, 1); (WBlock, 11)];
     [(WAgree, 1); (WExtract, 1); (WExpand, 4); (WEncrypt, 1); (WHash, 1); (WImport, 6); (WDestroy, 6); (WFetch, 1); (WBlock, 14)]]%nat /\
  map (spends static_r) [7; 8; 9]%nat =
    [[(WHash, 1)];
     [(WMakePair, 1); (WAgree, 2); (WExtract, 2); (WExpand, 3); (WHash, 2); (WImport, 7); (WDestroy, 7); (WFetch, 1); (WBlock, 14)];
     [(WAgree, 1); (WExtract, 1); (WExpand, 4); (WDecrypt, 1); (WHash, 1); (WImport, 7); (WDestroy, 7); (WTrust, 1); (WBlock, 12)]]%nat /\
  map (fun k => look (spends hist_i3 k) WSign + look (spends hist_i3 k) WVerify)%nat [7; 8; 9]%nat = [0; 1; 1]%nat /\
  spent (AM4Compose true 200) done_r = [(WExpand, 2); (WEncrypt, 1); (WImport, 3); (WDestroy, 3); (WBlock, 6)]%nat /\
  spent (AExport true 0 16) done_i = limits (AExport true 0 16) /\
  spent (AKeyUpdate true [1]) done_i = limits (AKeyUpdate true [1]) /\
  spent (AOscore true 16 8 7 7) done_i = limits (AOscore true 16 8 7 7).
Proof. repeat (apply conj; [vm_compute; reflexivity|]). vm_compute. reflexivity. Qed.
(** The limits on public-key operations are reached, with signatures and with static keys. *)
Definition costly (l : list (work * nat)) : nat := (look l WMakePair + look l WAgree + look l WSign + look l WVerify)%nat.
Example public_cases :
  map (fun k => costly (spends static_i k)) [7; 8; 9]%nat = [1; 2; 1]%nat /\ map (fun k => costly (spends static_r k)) [7; 8; 9]%nat = [0; 3; 1]%nat /\
  map (fun k => costly (spends hist_i3 k)) [7; 8; 9]%nat = [1; 2; 1]%nat.
Proof. repeat (apply conj; [vm_compute; reflexivity|]). vm_compute. reflexivity. Qed.
Definition static_end := Eval vm_compute in world_of (@runs e0 static_i blank) blank.
(** The limits of a session are reached. *)
Example session_cases : @reachable e0 blank /\ ~ In AInit (tl static_i) /\
  (exists rs w, @runs e0 [AInit] blank = Ret rs w /\ @reachable e0 w /\ w_tr w = [] /\ exists rs', @runs e0 (tl static_i) w = Ret rs' static_end) /\
  map (fun k => amount k (w_tr static_end)) [WAgree; WExtract; WHash] = [3; 3; 4]%nat.
Proof.
  split; [reach (@nil api) blank|]. split; [cbn; intuition discriminate|]. split; [|vm_compute; reflexivity].
  ex (rs_of (@runs e0 [AInit] blank)). ex (world_of (@runs e0 [AInit] blank) blank). split; [vm_compute; reflexivity|].
  split; [reach [AInit] (world_of (@runs e0 [AInit] blank) blank)|]. split; [reflexivity|].
  ex (rs_of (@runs e0 (tl static_i) (world_of (@runs e0 [AInit] blank) blank))). vm_compute. reflexivity.
Qed.
(** Up to the question about credentials: the limits on cryptography and buffers are reached. *)
Fixpoint up_to_question (l : list event) : list event :=
  match l with EvCredVerify _ _ _ _ :: _ | [] => [] | x :: t => x :: up_to_question t end.
Definition early_spent (l : list api) (k : nat) : list (work * nat) :=
  let w := world_of (@runs e0 (firstn k l) blank) blank in
  match @do_api e0 (nth k l AInit) w with
  | Ret _ w' => let e := up_to_question (rev (firstn (length (w_tr w') - length (w_tr w)) (w_tr w'))) in
                filter (fun x => negb (Nat.eqb (snd x) 0)) (map (fun k => (k, amount k e)) works)
  | Ub _ => []
  end.
Example early_cases :
  early_spent static_i 8 = [(WAgree, 1); (WExtract, 1); (WExpand, 1); (WHash, 1); (WImport, 3); (WDestroy, 3); (WBlock, 4)]%nat /\
  early_spent static_r 9 = [(WExpand, 2); (WDecrypt, 1); (WImport, 3); (WDestroy, 3); (WBlock, 5)]%nat.
Proof. split; vm_compute; reflexivity. Qed.

(** ** C79 *)
(** Whatever the state and the arguments, in particular whatever bytes arrive, a call asks for no
    more than the table of Work.v says. *)
Theorem C79_call : forall (E : env) a w r w', do_api a w = Ret r w' ->
  exists e, w_tr w' = e ++ w_tr w /\ forall k, (amount k e <= limit a k)%nat.
Proof. exact (@call_bound). Qed.
Print Assumptions C79_call.
(** Of the costly operations (key pairs, key agreements, signatures, verifications) a call makes at
    most three, and none when it processes a first message, handles a fourth one or exports. *)
Theorem C79_public : forall (E : env) a w r w', do_api a w = Ret r w' ->
  exists e, w_tr w' = e ++ w_tr w /\ (amount WMakePair e + amount WAgree e + amount WSign e + amount WVerify e <= publics a)%nat.
Proof. exact (@public_bound). Qed.
Print Assumptions C79_public.
(** Hence a history asks for no more than the sum of its calls. *)
Theorem C79_history : forall (E : env) l w rs w', runs l w = Ret rs w' ->
  exists e, w_tr w' = e ++ w_tr w /\ forall k, (amount k e <= list_sum (map (fun a => limit a k) l))%nat.
Proof. exact (@runs_bound). Qed.
Print Assumptions C79_history.
(** Until the context is initialised again, however many messages arrive: at most three key
    agreements, three extractions and four hashes.  (C71 bounds key pairs, signatures, uses of the
    cipher and the application's callbacks in the same way.) *)
Theorem C79_session : forall (E : env) l w rs w' e,
  reachable w -> ~ In AInit l -> runs l w = Ret rs w' -> w_tr w' = e ++ w_tr w ->
  (amount WAgree e <= 3 /\ amount WExtract e <= 3 /\ amount WHash e <= 4)%nat.
Proof. exact (@session_bound). Qed.
Print Assumptions C79_session.
(** What a stranger can cause: until the application has been asked about the credentials in it, a
    second message costs at most one key agreement, a third message one decryption and no
    public-key operation, and neither a verification (the table is in Early.v). *)
Theorem C79_stranger : forall (E : env) a w r w', do_api a w = Ret r w' -> exists e, w_tr w' = e ++ w_tr w /\
  forall later before, e = later ++ before -> unasked before -> forall k, (amount k before <= look (early_limits a) k)%nat.
Proof. exact early_bound. Qed.
Print Assumptions C79_stranger.
