(** Property C77: only the last accepted configuration counts.  Vocabulary in Spec.v and Order.v. *)
From Verif Require Import Monad Api Common Exporter History Spec Order StaleProofs Demo DemoX DemoZ PropReply PropExport.

(** The demonstration initiator configured straight away, and after a detour: other methods, more
    suites and another identifier first, and rejected calls last.  The contexts differ (the longer
    arrays are still there) and the handshake is the same. *)
Definition straight : list api := Eval vm_compute in firstn 6 (tl hist_i3).
Definition detour : list api := Eval vm_compute in
  [AMethods (Some [3; 2; 1]); ASuites (Some [csuite0; csuite0; CS 7 8 8 8 8 8 8 8]); ACid (Some (CID CID_INT 5 [])); AUser None] ++ straight ++ [AMethods None; ASuites (Some [])].
Definition on_i (l : list api) : world := world_of (@runs e0 (AInit :: l) blank) blank.
Example stale_cases :
  forallb is_config straight = true /\ forallb is_config detour = true /\
  vals (@runs e0 (AInit :: straight) blank) = repeat OK 7 /\
  vals (@runs e0 (AInit :: detour) blank) = repeat OK 4 ++ [E_INVALID_ARG] ++ repeat OK 6 ++ [E_INVALID_ARG; E_INVALID_ARG] /\
  (forall s, in_force s (rs_of (@runs e0 (AInit :: straight) blank)) = in_force s (rs_of (@runs e0 (AInit :: detour) blank))) /\
  in_force SCid (rs_of (@runs e0 (AInit :: detour) blank)) <> None /\
  length (c_csuites (w_ctx (on_i straight))) = 1%nat /\ length (c_csuites (w_ctx (on_i detour))) = 3%nat /\
  vals (@runs e0 (skipn 7 hist_i3) (on_i detour)) = repeat OK 3.
Proof.
  repeat (split; [vm_compute; reflexivity|]). split; [intros []; vm_compute; reflexivity|]. split; [vm_compute; discriminate|]. repeat split; vm_compute; reflexivity.
Qed.

(** ** C77 *)
(** However a fresh context was configured, with repeated and rejected calls in any order: if the
    last accepted calls about each setting are the same, every later history is the same, results
    and callback invocations. *)
Theorem C77_last_counts : forall (E : env) l l' w rs rs' v v', forallb is_config l = true -> forallb is_config l' = true ->
  runs (AInit :: l) w = Ret rs v -> runs (AInit :: l') w = Ret rs' v' -> (forall s, in_force s rs = in_force s rs') ->
  forall m, match runs m v, runs m v' with
  | Ret q u, Ret q' u' => q = q' /\ w_tr u = w_tr u'
  | Ub x, Ub x' => x = x'
  | _, _ => False
  end.
Proof. exact @replaced. Qed.
Print Assumptions C77_last_counts.
