(** Property C73: the settings of a context are what the application set.  Vocabulary in Spec.v and
    Settings.v. *)
From Verif Require Import Monad Api Common Exporter History Spec Settings SettingsProofs Demo DemoX DemoZ PropReply PropExport.

(** The demonstration initiator after message 3: seven calls set something, three do not. *)
Example settings_cases : @reachable e0 blank /\ (exists rs, @runs e0 hist_i3 blank = Ret rs done_i) /\
  length (filter sets hist_i3) = 7%nat /\ length hist_i3 = 10%nat /\ settings (w_ctx done_i) <> settings (w_ctx blank) /\ w_tr done_i <> [].
Proof.
  split; [reach (@nil api) blank|]. split; [ex (rs_of (@runs e0 hist_i3 blank)); vm_compute; reflexivity|].
  split; [reflexivity|]. split; [reflexivity|]. split; [|vm_compute; discriminate].
  intro X. apply (f_equal (fun x => fst (fst (fst (fst (fst x)))))) in X. vm_compute in X. discriminate X.
Qed.

(** ** C73 *)
(** No message, export, key update or query changes a setting, whatever its outcome. *)
Theorem C73_kept : forall (E : env) a w r w', reachable w -> sets a = false -> do_api a w = Ret r w' ->
  settings (w_ctx w') = settings (w_ctx w).
Proof. exact (@settings_stay). Qed.
Print Assumptions C73_kept.
(** In any history the settings, and the answers of the calls that set something, are those of
    these calls made alone. *)
Theorem C73_alone : forall (E : env) l w rs w', reachable w -> runs l w = Ret rs w' ->
  exists v, runs (filter sets l) w = Ret (filter (fun x => sets (fst x)) rs) v /\ settings (w_ctx v) = settings (w_ctx w').
Proof. exact (@settings_alone). Qed.
Print Assumptions C73_alone.
