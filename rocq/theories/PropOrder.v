(** Property C76: a context may be configured in any order.  Vocabulary in Spec.v and Order.v. *)
From Coq Require Import Permutation.
From Verif Require Import Monad Api Common Exporter History Spec Order OrderProofs Demo DemoX DemoZ PropReply PropExport.

(** The six configuration calls of the demonstration initiator and the same calls backwards, with
    a rejected one among them. *)
Definition set_up : list api := Eval vm_compute in AMethods (Some []) :: firstn 6 (tl hist_i3).
Definition backwards : list api := Eval vm_compute in rev (firstn 6 (tl hist_i3)) ++ [].
Definition backwards' : list api := Eval vm_compute in
  match backwards with x :: l => x :: AMethods (Some []) :: l | [] => [] end.
Definition started : world := Eval vm_compute in world_of (@runs e0 [AInit] blank) blank.
Example order_cases : reordered set_up backwards' /\ set_up <> backwards' /\
  (forall s, (length (filter (about s) backwards) <= 1)%nat) /\ length backwards = 6%nat /\
  vals (@runs e0 set_up started) = E_INVALID_ARG :: repeat OK 6 /\
  vals (@runs e0 backwards' started) = OK :: E_INVALID_ARG :: repeat OK 5 /\
  vals (@runs e0 (set_up ++ skipn 7 hist_i3) started) = E_INVALID_ARG :: repeat OK 9.
Proof.
  split; [split; [reflexivity|]; split; [reflexivity|]; intros []; reflexivity|]. split; [discriminate|].
  split; [intros []; vm_compute; repeat constructor|]. repeat split; vm_compute; reflexivity.
Qed.

(** ** C76 *)
(** Calls about different settings, rejected ones among them, may be made in any order: each gets
    the same answer, the context ends up the same, and no callback is invoked. *)
Theorem C76_order : forall (E : env) l l' w, reordered l l' ->
  exists rs rs' w', runs l w = Ret rs w' /\ runs l' w = Ret rs' w' /\ w_tr w' = w_tr w /\
  forall s, filter (fun x => about s (fst x)) rs = filter (fun x => about s (fst x)) rs'.
Proof. exact @order. Qed.
Print Assumptions C76_order.
(** So every history that follows is the same. *)
Theorem C76_session : forall (E : env) l l' m w, reordered l l' ->
  match runs (l ++ m) w, runs (l' ++ m) w with
  | Ret rs v, Ret rs' v' => v = v' /\ skipn (length l) rs = skipn (length l') rs'
  | Ub u, Ub u' => u = u'
  | _, _ => False
  end.
Proof. exact @session. Qed.
Print Assumptions C76_session.
(** In particular any permutation of calls that set each thing at most once. *)
Theorem C76_permutation : forall l l', forallb is_config l = true -> (forall s, (length (filter (about s) l) <= 1)%nat) ->
  Permutation l l' -> reordered l l'.
Proof. exact perm_reordered. Qed.
Print Assumptions C76_permutation.
