(** Only the calls that set something change the settings.  No code of /repo is modelled here. *)
From Verif Require Import Monad Api Common Msg1 Msg2 Msg3 Msg4 Exporter History Spec Logic Frame Calls HistoryProofs AttemptProofs Settings.

Section Settings.
Context {E : env}.
Lemma settings_fields : forall c c', settings c = settings c' ->
  c_is_init c = c_is_init c' /\ c_methods c = c_methods c' /\ c_method_len c = c_method_len c' /\ c_csuites c = c_csuites c' /\ c_csuite_len c = c_csuite_len c' /\
  c_cid c = c_cid c' /\ c_ead c = c_ead c' /\ c_keys c = c_keys c' /\ c_crypto c = c_crypto c' /\ c_cred c = c_cred c' /\ c_user c = c_user c'.
Proof. intros c c' H. unfold settings in H. injection H; intros. repeat split; assumption. Qed.
Lemma settings_kept : forall c c', kept c = kept c' -> settings c = settings c'.
Proof. intros c c' H. unfold kept in H. unfold settings. injection H; intros. congruence. Qed.
(** A call of [cfg] depends on the settings alone. *)
Definition local (f : ctx -> Z * ctx) : Prop := forall c d, settings c = settings d -> fst (f c) = fst (f d) /\ settings (snd (f c)) = settings (snd (f d)).
Ltac loc := intros c d H; destruct (settings_fields _ _ H) as (H1 & H2 & H3 & H4 & H5 & H6 & H7 & H8 & H9 & H10 & H11);
  repeat match goal with |- context [match ?o with Some _ => _ | None => _ end] => destruct o end; rewrite ?H1;
  repeat match goal with |- context [if ?b then _ else _] => destruct b end; cbn [fst snd]; (split; [reflexivity|]); try exact H; try reflexivity;
  unfold settings; cbn; congruence.
Lemma init_l : local context_init. Proof. unfold context_init. loc. Qed.
Lemma deinit_l : local context_deinit. Proof. unfold context_deinit. loc. Qed.
Lemma methods_l : forall m, local (set_methods_call m). Proof. intro m. unfold set_methods_call. loc. Qed.
Lemma suites_l : forall m, local (set_cipher_suites_call m). Proof. intro m. unfold set_cipher_suites_call. loc. Qed.
Lemma cid_l : forall m, local (set_connection_id_call m). Proof. intro m. unfold set_connection_id_call. loc. Qed.
Lemma user_l : forall m, local (set_user_context_call m). Proof. intro m. unfold set_user_context_call. loc. Qed.
Lemma ead_l : forall m, local (bind_ead_call m). Proof. intro m. unfold bind_ead_call, is_none. loc. Qed.
Lemma keys_l : forall m, local (bind_keys_call m). Proof. intro m. unfold bind_keys_call. generalize (@is_none) as N. intro N. loc. Qed.
Lemma crypto_l : forall m, local (bind_crypto_call m). Proof. intro m. unfold bind_crypto_call. generalize (@is_none) as N. intro N. loc. Qed.
Lemma cred_l : forall m, local (bind_credentials_call m). Proof. intro m. unfold bind_credentials_call. generalize (@is_none) as N. intro N. loc. Qed.
Lemma cfg_local : forall f w v, local f -> settings (w_ctx w) = settings (w_ctx v) ->
  exists r w' v', cfg f w = Ret r w' /\ cfg f v = Ret r v' /\ settings (w_ctx w') = settings (w_ctx v').
Proof.
  intros f w v L H. unfold cfg, bind, getc, modify, ret. destruct (L _ _ H) as [L1 L2]. destruct (f (w_ctx w)) as [r c], (f (w_ctx v)) as [r' c']. cbn in *. subst r'.
  eexists _, _, _. split; [reflexivity|]. split; [reflexivity|]. exact L2.
Qed.
Lemma sets_local : forall a w v, sets a = true -> settings (w_ctx w) = settings (w_ctx v) ->
  exists r w' v', do_api a w = Ret r w' /\ do_api a v = Ret r v' /\ settings (w_ctx w') = settings (w_ctx v').
Proof.
  intros a w v S H. destruct a; try discriminate S; cbn [do_api]; apply cfg_local; try exact H;
    first [apply init_l|apply deinit_l|apply methods_l|apply suites_l|apply cid_l|apply user_l|apply ead_l|apply keys_l|apply crypto_l|apply cred_l].
Qed.
(** Every other call keeps them. *)
Lemma other_settings : forall a w r w', sets a = false -> nonneg w -> do_api a w = Ret r w' -> settings (w_ctx w') = settings (w_ctx w).
Proof.
  intros a w r w' S N H. destruct (kind a) as [k|] eqn:K.
  - destruct (msg_cases _ _ _ _ _ K N H) as [(-> & _)|(_ & _ & [_ _ C3 C4] & _)]; [reflexivity|].
    assert (X : forall c1, sel_of k (w_ctx w) c1 -> settings c1 = settings (w_ctx w)).
    { intros c1 X. destruct k; cbn [sel_of] in X; first [destruct X as (i & m & ->); reflexivity | rewrite X; reflexivity]. }
    destruct (Z.eq_dec (fst r) OK) as [R|R].
    + destruct (C4 R) as (c1 & L & Q). rewrite (settings_kept _ _ Q), <- (X _ L). destruct k; reflexivity.
    + destruct (C3 R) as (e & c1 & _ & L & Q). rewrite (settings_kept _ _ Q), <- (X _ L). reflexivity.
  - destruct a; try discriminate S; try discriminate K; cbn [do_api] in H.
    + pose proof (export_prk_exporter_fr nn label n) as F. unfold msg_out in H. apply bind_inv in H as ([x y] & w1 & H1 & H2).
      pose proof (sat_run _ _ _ _ _ _ _ (F w N) H1) as Q. inversion H2; subst. exact (settings_kept _ _ (st_kept _ _ _ _ Q)).
    + unfold no_out in H. apply bind_inv in H as (x & w1 & H1 & H2). inversion H2; subst.
      pose proof (sat_run _ _ _ _ _ _ _ (export_key_update_post _ _ _ N) H1) as (_ & Ho & Hf). destruct (Z.eq_dec x OK) as [->|R].
      * destruct (Ho eq_refl) as (_ & _ & _ & Q). rewrite (settings_kept _ _ Q). reflexivity.
      * destruct (Hf R) as [[-> _]|[_ Q]]; [reflexivity|]. rewrite (settings_kept _ _ Q). reflexivity.
    + apply bind_inv in H as ([x y] & w1 & H1 & H2). inversion H2; subst.
      pose proof (sat_run _ _ _ _ _ _ _ (export_oscore_session_post _ _ _ _ _ _ N) H1) as (_ & Ho & Hf). cbn [fst] in *. destruct (Z.eq_dec x OK) as [->|R].
      * destruct (Ho eq_refl) as (_ & _ & _ & _ & Q). rewrite (settings_kept _ _ Q). reflexivity.
      * destruct (Hf R) as [[-> _]|(_ & _ & Q)]; [reflexivity|]. rewrite (settings_kept _ _ Q). reflexivity.
    + unfold bind, getc in H. destruct (error_get_code nn (w_ctx w)). inversion H; subst. reflexivity.
    + unfold bind, getc in H. destruct (error_get_cipher_suites nn size peer_size (w_ctx w)) as [[? ?] ?]. inversion H; subst. reflexivity.
Qed.
Lemma only_sets : forall l w v rs w', nonneg w -> settings (w_ctx w) = settings (w_ctx v) -> runs l w = Ret rs w' ->
  exists v', runs (filter sets l) v = Ret (filter (fun x => sets (fst x)) rs) v' /\ settings (w_ctx v') = settings (w_ctx w').
Proof.
  induction l as [|a l IH]; intros w v rs w' N S H; [apply runs_nil in H as [-> ->]; exists v; split; [reflexivity|now symmetry]|].
  apply runs_cons in H as (r & w1 & rs' & H1 & H2 & ->). pose proof (step_nonneg _ _ _ _ N H1) as N1. cbn [filter fst]. destruct (sets a) eqn:A.
  - destruct (sets_local _ _ _ A S) as (r' & w2 & v1 & X & Y & S1). rewrite H1 in X. injection X as <- <-.
    destruct (IH _ _ _ _ N1 S1 H2) as (v' & R & S2). exists v'. split; [|exact S2]. cbn [runs]. unfold bind. rewrite Y, R. reflexivity.
  - apply (IH w1 v rs' w' N1); [|exact H2]. rewrite (other_settings _ _ _ _ A N H1). exact S.
Qed.
Lemma settings_alone : forall l w rs w', reachable w -> runs l w = Ret rs w' ->
  exists v, runs (filter sets l) w = Ret (filter (fun x => sets (fst x)) rs) v /\ settings (w_ctx v) = settings (w_ctx w').
Proof. intros l w rs w' R H. apply (only_sets l w w rs w'); [now apply reachable_nonneg|reflexivity|exact H]. Qed.
Lemma settings_stay : forall a w r w', reachable w -> sets a = false -> do_api a w = Ret r w' -> settings (w_ctx w') = settings (w_ctx w).
Proof. intros a w r w' R S H. apply (other_settings a w r w' S); [now apply reachable_nonneg|exact H]. Qed.
End Settings.
