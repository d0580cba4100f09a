(** Property C78: a handshake under way keeps its method and its cipher suite.  Vocabulary in
    Spec.v. *)
From Verif Require Import Monad Api Common Exporter History Spec MidProofs Demo DemoX DemoZ PropReply PropExport.

(** The demonstration initiator waiting for message 2, and what is left to do. *)
Definition waiting : world := Eval vm_compute in world_of (@runs e0 (firstn 8 hist_i3) blank) blank.
Definition to_do : list api := Eval vm_compute in skipn 8 hist_i3.
Definition then_do (a : api) : list Z := vals (@runs e0 (a :: to_do) waiting).
Definition more_suites (c : ctx) : list csuite := c_csuites c ++ [csuite0].
Example mid_cases : @reachable e0 waiting /\ c_status (w_ctx waiting) <> SM_START /\
  then_do (AMethods (Some [3; 1])) = [OK; OK; OK] /\ then_do (AMethods None) = [E_INVALID_ARG; OK; OK] /\
  then_do (ASuites (Some (more_suites (w_ctx waiting)))) = [OK; OK; OK] /\
  the_suite (w_ctx (world_of (@runs e0 [ASuites (Some (more_suites (w_ctx waiting)))] waiting) blank)) = the_suite (w_ctx waiting).
Proof. split; [reach (firstn 8 hist_i3) waiting|]. repeat split; vm_compute; solve [reflexivity|discriminate]. Qed.

(** ** C78 *)
(** Once the first message was composed or processed, setting the methods, accepted or not, has no
    effect on any later result or callback invocation. *)
Theorem C78_methods : forall (E : env) x w r v, c_status (w_ctx w) <> SM_START -> do_api (AMethods x) w = Ret r v ->
  forall m, match runs m w, runs m v with
  | Ret q u, Ret q' u' => q = q' /\ w_tr u = w_tr u'
  | Ub x, Ub x' => x = x'
  | _, _ => False
  end.
Proof. exact @methods_midway. Qed.
Print Assumptions C78_methods.
(** Setting the suites has none either if the suite the session uses is still in its place, other
    than on what the query of suites answers.  Missing: the other cases, which are false. *)
Theorem C78_suites_partial : forall (E : env) x w r v, c_status (w_ctx w) <> SM_START -> do_api (ASuites x) w = Ret r v ->
  the_suite (w_ctx v) = the_suite (w_ctx w) ->
  forall m, (forall nn n p, ~ In (AErrSuites nn n p) m) -> match runs m w, runs m v with
  | Ret q u, Ret q' u' => q = q' /\ w_tr u = w_tr u'
  | Ub x, Ub x' => x = x'
  | _, _ => False
  end.
Proof. exact @suites_midway_in. Qed.
Print Assumptions C78_suites_partial.
(** In general it has: the index of the chosen suite is kept and the table behind it changes.  Here
    message 2, accepted otherwise, fails. *)
Theorem C78_suites_refuted : exists (E : env) w x v m, reachable w /\ c_status (w_ctx w) <> SM_START /\
  do_api (ASuites x) w = Ret (OK, ONone) v /\ vals (runs m w) = [OK; OK] /\ hd OK (vals (runs m v)) <> OK.
Proof.
  exists e0, waiting, (Some [CS 2 16 8 13 48 8 32 64]). ex (match @do_api e0 (ASuites (Some [CS 2 16 8 13 48 8 32 64])) waiting with Ret _ w => w | _ => blank end). exists to_do.
  split; [reach (firstn 8 hist_i3) waiting|]. repeat split; vm_compute; solve [reflexivity|discriminate].
Qed.
Print Assumptions C78_suites_refuted.
