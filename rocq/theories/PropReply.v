(** Properties C61 and C62: what callbacks reply and what fits where.  [do_api a] runs one call of
    include/edhoc.h, [runs l] a whole history (History.v); [granted], [released] are in
    Replies.v, [context_fits], [asked_within], [fits_caller] in Bounds.v. *)
From Verif Require Import Monad History Spec Replies RepliesProofs Bounds BoundsProofs Demo.

(** The initiator's session up to an OSCORE context, and what it leaves. *)
Definition e0 : env := demo_env knobs0.
Definition li : list api := Eval vm_compute in
  @h_i3 e0 (setup 1 0) (setup 2 0) ++ [AOscore true 16 8 7 7].
Definition at_end (l : list api) : world := world_of (@runs e0 l blank) blank.

(** ** C61: a success report means nothing was refused *)
(** Every allocation during the call was granted and every callback reported success; what is
    missing is the release of keys, below. *)
Theorem C61_granted_partial : forall (E : env) a w o w', do_api a w = Ret (OK, o) w' ->
  exists e, w_tr w' = e ++ w_tr w /\ Forall granted e.
Proof. exact @success_granted. Qed.
Print Assumptions C61_granted_partial.
(** Message 2 processed successfully: more than twenty replies, among them on a credential. *)
Definition mid : world := Eval vm_compute in at_end (firstn 8 li).
Example C61_example : match do_api (E := e0) (nth 8 li AInit) mid with
  | Ret (r, _) w' => r = OK /\ 20 < zlen (w_tr w') - zlen (w_tr mid) /\
      existsb (fun x => match x with EvCredVerify _ _ _ _ => true | _ => false end)
        (firstn (length (w_tr w') - length (w_tr mid)) (w_tr w')) = true
  | Ub _ => False end.
Proof. vm_compute. repeat split. Qed.
(** A call reports success although the application failed to release a key. *)
Definition stuck : env := Eval cbv [e0 demo_env knobs0 k_stack k_alloc k_creds k_toks] in
  match e0 with Env a b c d f g h i j k l m n _ p q r s t u v x y z a1 b1 c1 =>
    Env a b c d f g h i j k l m n (fun _ _ _ => -1) p q r s t u v x y z a1 b1 c1 end.
Definition before : world := Eval vm_compute in world_of (@runs stuck (setup 1 0) blank) blank.
Definition after : Z * world := Eval vm_compute in match do_api (E := stuck) (AM1Compose true 400) before with Ret (r, _) w' => (r, w') | Ub _ => (-1, before) end.
Definition bad_release (e : event) : bool := match e with EvDestroy _ r => negb (r =? OK) | _ => false end.
Theorem C61_release_refuted : exists (E : env) a w o w' e,
  do_api a w = Ret (OK, o) w' /\ w_tr w' = e ++ w_tr w /\ ~ Forall released e.
Proof.
  exists stuck, (AM1Compose true 400), before. eexists. exists (snd after), (w_tr (snd after)).
  split; [vm_compute; reflexivity|]. split; [vm_compute; reflexivity|]. intro F.
  assert (X : existsb bad_release (w_tr (snd after)) = true) by (vm_compute; reflexivity).
  apply existsb_exists in X. destruct X as (e & I & B). rewrite Forall_forall in F. specialize (F e I).
  destruct e; try discriminate B. cbn in F, B. subst. discriminate B.
Qed.
Print Assumptions C61_release_refuted.

(** ** C62: what is stored and handed out fits its array *)
(** Whatever the application configures and whatever a peer sends. *)
Theorem C62_context : forall (E : env), 1 <= cf_max_suites -> 0 <= cf_max_cid -> forall l w rs w',
  runs (AInit :: l) w = Ret rs w' -> context_fits (w_ctx w').
Proof. exact @history_fits. Qed.
Print Assumptions C62_context.
(** The application is never asked to verify an identifier that exceeds its array. *)
Theorem C62_asked : forall (E : env), 1 <= cf_max_certs -> 0 <= cf_max_alg -> 0 <= cf_max_kid -> forall l w rs w',
  runs l w = Ret rs w' -> exists e, w_tr w' = e ++ w_tr w /\ Forall asked_within e.
Proof. exact @history_asked. Qed.
Print Assumptions C62_asked.
(** Exported material and lists of suites stay within the caller's buffers. *)
Theorem C62_handed : forall (E : env) l w rs w', Forall sizes_ok l -> runs l w = Ret rs w' ->
  Forall (fun x => fits_caller (fst x) (snd (snd x))) rs.
Proof. exact @history_handed. Qed.
Print Assumptions C62_handed.
Definition fin : world := Eval vm_compute in at_end li.
Example C62_example : (exists rs, @runs e0 li blank = Ret rs fin) /\ (exists l, li = AInit :: l) /\ Forall sizes_ok li /\
  context_fits (E := e0) (w_ctx fin) /\ c_oscore_ok (w_ctx fin) = false /\ zlen (cid_bstr (c_peer_cid (w_ctx fin))) = 3 /\
  existsb (fun e => match e with EvCredVerify (CR _ _ (CChain l)) _ _ _ => negb (zlen l =? 0) | _ => false end) (w_tr fin) = true.
Proof.
  split; [eexists; vm_compute; reflexivity|]. split; [eexists; reflexivity|].
  split; [unfold li; repeat constructor; cbn; intuition discriminate|].
  split; [constructor; vm_compute; intros; discriminate|]. repeat split; vm_compute; reflexivity.
Qed.
