(** What configuration calls leave alone. *)
From Verif Require Import Monad Api Common Msg1 Msg2 Msg3 Msg4 Exporter History Spec Rfc Uses
  Conform Sessions Logic HistoryProofs.

Section Fresh.
Context {E : env}.
(** The fields no configuration call touches, at their initial values. *)
Definition fresh (c : ctx) : Prop :=
  c_tokens c = [] /\ c_peer_csuite_len c = 0 /\ c_prk_state c = PRK_INVALID /\ c_status c = SM_START /\
  c_th_state c = TH_INVALID /\ c_is_init c = true /\ c_prk_len c = 0 /\ c_csuite_idx c = 0 /\
  0 <= c_csuite_len c <= zlen (c_csuites c) /\
  ((cid_type (c_cid c) = CID_INT /\ -24 <= cid_int (c_cid c) <= 23) \/
   (cid_type (c_cid c) = CID_BSTR /\ 1 <= zlen (cid_bstr (c_cid c)) <= cf_max_cid)).
Lemma zlen_blit : forall A (old l : list A), zlen l <= zlen (blit old l).
Proof. intros. unfold blit. rewrite zlen_app. match goal with |- _ <= _ + zlen ?x => pose proof (zlen_nonneg _ x) end. lia. Qed.
Lemma fresh_step : forall a w r w', is_config a = true -> fresh (w_ctx w) -> do_api a w = Ret r w' -> fresh (w_ctx w').
Proof.
  intros a [c t] r w' HC HF H. cbn [w_ctx] in HF.
  destruct a; try discriminate HC; cbn [do_api] in H; rewrite cfg_run in H; cbn [w_ctx w_tr] in H;
    injection H as _ <-; cbn [w_ctx];
    unfold set_methods_call, set_cipher_suites_call, set_connection_id_call, set_user_context_call, bind_ead_call, bind_keys_call,
      bind_crypto_call, bind_credentials_call;
    match goal with |- fresh (snd (match ?x with _ => _ end)) => destruct x end;
    repeat match goal with |- fresh (snd (if ?b then _ else _)) => destruct b eqn:? end; try exact HF;
    destruct HF as (F1 & F2 & F3 & F4 & F5 & F6 & F7 & F8 & F9 & F10);
    unfold fresh; cbn; repeat match goal with |- _ /\ _ => split; try assumption end; try assumption.
  - apply zlen_nonneg.
  - apply zlen_blit.
  - left. split; lia.
  - right. pose proof (zlen_nonneg _ (cid_bstr c0)). split; lia.
Qed.
Lemma fresh_runs : forall l w rs w', Forall (fun a => is_config a = true) l -> fresh (w_ctx w) -> runs l w = Ret rs w' -> fresh (w_ctx w').
Proof.
  induction l as [|a l IH]; intros w rs w' HC HF H.
  - apply runs_nil in H as [_ ->]. exact HF.
  - inversion HC; subst. apply runs_cons in H as (r & w1 & rs' & A & B & _).
    apply (IH w1 rs' w'); [assumption| |assumption]. eapply fresh_step; eauto.
Qed.
Lemma configured_fresh : forall c, configured c -> fresh c.
Proof.
  intros c (c0 & l & rs & t & HC & H). apply runs_cons in H as (r & w1 & rs' & A & B & _).
  rewrite init_run in A. injection A as _ <-. apply (fresh_runs l _ _ (Wd c t)) in B; [exact B|assumption|].
  cbn. unfold fresh. repeat match goal with |- _ /\ _ => split; try reflexivity end; cbn; try lia. left. split; [reflexivity|lia].
Qed.
End Fresh.
