(** Proofs about the configuration calls (Api.v). *)
From Verif Require Import Monad Api History Spec Logic.

Lemma take_blit : forall A (l old : list A), take (zlen l) (blit old l) = l.
Proof.
  intros. unfold take, blit, zlen. rewrite Nat2Z.id, firstn_app, Nat.sub_diag. cbn [firstn].
  now rewrite firstn_all, app_nil_r.
Qed.

Section Cfg.
Context {E : env}.

Lemma set_methods_spec : forall ms c r c', set_methods_call ms c = (r, c') ->
  (r = OK <-> c_is_init c = true /\ exists l, ms = Some l /\ 1 <= zlen l <= 4) /\
  (r <> OK -> c' = c) /\
  (r = OK -> forall l, ms = Some l ->
     c_method_len c' = zlen l /\ take (c_method_len c') (c_methods c') = l /\
     exists a b, c' = set_methods a (set_method_len b c)).
Proof.
  intros ms c r c' H. unfold set_methods_call, METHOD_MAX in H. destruct ms as [l|].
  2:{ inversion H; subst. split; [split; [discriminate|intros (_ & l & X & _); discriminate]|].
      split; [auto|discriminate]. }
  destruct ((zlen l =? 0) || (4 <? zlen l)) eqn:A.
  { inversion H; subst. split; [split; [discriminate|]|split; [auto|discriminate]].
    intros (_ & l' & X & Y). inversion X; subst. lia. }
  destruct (c_is_init c) eqn:B; cbn [negb] in H; inversion H; subst.
  - split; [|split; [congruence|]].
    + pose proof (zlen_nonneg _ l). split; auto. intros _. split; [reflexivity|]. exists l.
      split; [reflexivity|lia].
    + intros _ l' X. inversion X; subst. split; [reflexivity|]. split; [apply take_blit|].
      do 2 eexists; reflexivity.
  - split; [split; [discriminate|now intros [X _]]|split; [auto|discriminate]].
Qed.

Lemma set_cipher_suites_spec : forall ss c r c', set_cipher_suites_call ss c = (r, c') ->
  (r = OK <-> c_is_init c = true /\ exists l, ss = Some l /\ 1 <= zlen l <= cf_max_suites) /\
  (r <> OK -> c' = c) /\
  (r = OK -> forall l, ss = Some l ->
     c_csuite_len c' = zlen l /\ take (c_csuite_len c') (c_csuites c') = l /\
     exists a b, c' = set_csuites a (set_csuite_len b c)).
Proof.
  intros ss c r c' H. unfold set_cipher_suites_call in H. destruct ss as [l|].
  2:{ inversion H; subst. split; [split; [discriminate|intros (_ & l & X & _); discriminate]|].
      split; [auto|discriminate]. }
  destruct (zlen l =? 0) eqn:A.
  { inversion H; subst. split; [split; [discriminate|]|split; [auto|discriminate]].
    intros (_ & l' & X & Y). inversion X; subst. lia. }
  destruct (c_is_init c) eqn:B; cbn [negb] in H.
  2:{ inversion H; subst. split; [split; [discriminate|now intros [X _]]|split; [auto|discriminate]]. }
  destruct (cf_max_suites <? zlen l) eqn:D; inversion H; subst.
  { split; [split; [discriminate|]|split; [auto|discriminate]].
    intros (_ & l' & X & Y). inversion X; subst. lia. }
  split; [|split; [congruence|]].
  - pose proof (zlen_nonneg _ l). split; auto. intros _. split; [reflexivity|]. exists l.
    split; [reflexivity|lia].
  - intros _ l' X. inversion X; subst. split; [reflexivity|]. split; [apply take_blit|].
    do 2 eexists; reflexivity.
Qed.

Lemma set_connection_id_spec : forall i c r c', set_connection_id_call i c = (r, c') ->
  (r = OK <-> c_is_init c = true /\ exists v, i = Some v /\
     (cid_type v = CID_INT /\ -24 <= cid_int v <= 23 \/
      cid_type v = CID_BSTR /\ 1 <= zlen (cid_bstr v) <= cf_max_cid)) /\
  (r <> OK -> c' = c) /\
  (r = OK -> forall v, i = Some v -> c_cid c' = v /\ exists a, c' = set_cid a c).
Proof.
  intros i c r c' H. unfold set_connection_id_call, CID_INT, CID_BSTR in *. destruct i as [v|].
  2:{ inversion H; subst. split; [split; [discriminate|intros (_ & l & X & _); discriminate]|].
      split; [auto|discriminate]. }
  pose proof (zlen_nonneg _ (cid_bstr v)).
  destruct (c_is_init c) eqn:B; cbn [negb] in H.
  2:{ inversion H; subst. split; [split; [discriminate|now intros [X _]]|split; [auto|discriminate]]. }
  assert (W : forall v', Some v = Some v' -> v' = v) by congruence.
  destruct (cid_type v =? 0) eqn:T0; [|destruct (cid_type v =? 1) eqn:T1].
  - destruct ((cid_int v <? -24) || (23 <? cid_int v)) eqn:D; inversion H; subst; clear H.
    + split; [split; [discriminate|]|split; [auto|discriminate]].
      intros (_ & v' & X & Y). apply W in X; subst. lia.
    + split; [split; auto|split; [congruence|]].
      * intros _. split; [reflexivity|]. exists v. split; [reflexivity|]. lia.
      * intros _ v' X. apply W in X; subst. split; [reflexivity|eexists; reflexivity].
  - destruct (zlen (cid_bstr v) =? 0) eqn:D; [|destruct (cf_max_cid <? zlen (cid_bstr v)) eqn:F];
      inversion H; subst; clear H.
    1,2: split; [split; [discriminate|]|split; [auto|discriminate]];
      intros (_ & v' & X & Y); apply W in X; subst; lia.
    split; [split; auto|split; [congruence|]].
    + intros _. split; [reflexivity|]. exists v. split; [reflexivity|]. lia.
    + intros _ v' X. apply W in X; subst. split; [reflexivity|eexists; reflexivity].
  - inversion H; subst; clear H. split; [split; [discriminate|]|split; [auto|discriminate]].
    intros (_ & v' & X & Y). apply W in X; subst. lia.
Qed.
End Cfg.

Lemma set_user_context_spec : forall u c r c', set_user_context_call u c = (r, c') ->
  (r = OK <-> c_is_init c = true /\ u <> None) /\ (r <> OK -> c' = c) /\
  (r = OK -> c_user c' = u /\ exists a, c' = set_user a c).
Proof.
  intros u c r c' H. unfold set_user_context_call in H. destruct u as [v|].
  - destruct (c_is_init c) eqn:B; cbn [negb] in H; inversion H; subst.
    + split; [split; [split; congruence|reflexivity]|]. split; [congruence|].
      split; [reflexivity|eexists; reflexivity].
    + split; [split; [discriminate|now intros [X _]]|split; [auto|discriminate]].
  - inversion H; subst. split; [split; [discriminate|intros [_ X]; congruence]|split; [auto|discriminate]].
Qed.

Ltac bind_tac :=
  match goal with
  | H : context [c_is_init ?c] |- _ =>
    destruct (c_is_init c) eqn:?; cbn [negb] in H;
    [| inversion H; subst; split; [split; [discriminate|now intros [? _]]|split; [auto|discriminate]]]
  end.

Lemma bind_ead_spec : forall e c r c', bind_ead_call e c = (r, c') ->
  (r = OK <-> c_is_init c = true /\
     exists f, e = Some f /\ (f_compose f <> None \/ f_process f <> None)) /\
  (r <> OK -> c' = c) /\
  (r = OK -> e = Some (c_ead c') /\ exists a, c' = set_ead a c).
Proof.
  intros e c r c' H. unfold bind_ead_call in H. destruct e as [f|].
  2:{ inversion H; subst. split; [split; [discriminate|intros (_ & l & X & _); discriminate]|].
      split; [auto|discriminate]. }
  bind_tac.
  destruct f as [fc fp]; cbn [f_compose f_process] in *.
  destruct (is_none fc && is_none fp) eqn:D; inversion H; subst; clear H.
  - split; [split; [discriminate|]|split; [auto|discriminate]].
    intros (_ & g & X & Y). inversion X; subst; cbn in Y. destruct fc, fp; try discriminate. intuition congruence.
  - split; [split; [|reflexivity]|split; [congruence|]].
    + intros _. split; [reflexivity|]. eexists; split; [reflexivity|]. cbn.
      destruct fc, fp; try discriminate; intuition congruence.
    + intros _. split; [reflexivity|eexists; reflexivity].
Qed.

Lemma bind_keys_spec : forall e c r c', bind_keys_call e c = (r, c') ->
  (r = OK <-> c_is_init c = true /\ exists f, e = Some f /\ keys_complete f) /\
  (r <> OK -> c' = c) /\
  (r = OK -> e = Some (c_keys c') /\ exists a, c' = set_keys a c).
Proof.
  intros e c r c' H. unfold bind_keys_call in H. destruct e as [f|].
  2:{ inversion H; subst. split; [split; [discriminate|intros (_ & l & X & _); discriminate]|].
      split; [auto|discriminate]. }
  bind_tac. unfold keys_complete.
  destruct f as [fa fb]; cbn [f_import f_destroy] in *.
  destruct (is_none fa || is_none fb) eqn:D; inversion H; subst; clear H.
  - split; [split; [discriminate|]|split; [auto|discriminate]].
    intros (_ & g & X & Y). inversion X; subst; cbn in Y. destruct fa, fb; try discriminate; intuition congruence.
  - split; [split; [|reflexivity]|split; [congruence|]].
    + intros _. split; [reflexivity|]. eexists; split; [reflexivity|]. cbn.
      destruct fa, fb; try discriminate; intuition congruence.
    + intros _. split; [reflexivity|eexists; reflexivity].
Qed.
Lemma bind_credentials_spec : forall e c r c', bind_credentials_call e c = (r, c') ->
  (r = OK <-> c_is_init c = true /\ exists f, e = Some f /\ cred_complete f) /\
  (r <> OK -> c' = c) /\
  (r = OK -> e = Some (c_cred c') /\ exists a, c' = set_cred a c).
Proof.
  intros e c r c' H. unfold bind_credentials_call in H. destruct e as [f|].
  2:{ inversion H; subst. split; [split; [discriminate|intros (_ & l & X & _); discriminate]|].
      split; [auto|discriminate]. }
  bind_tac. unfold cred_complete.
  destruct f as [fa fb]; cbn [f_fetch f_cverify] in *.
  destruct (is_none fa || is_none fb) eqn:D; inversion H; subst; clear H.
  - split; [split; [discriminate|]|split; [auto|discriminate]].
    intros (_ & g & X & Y). inversion X; subst; cbn in Y. destruct fa, fb; try discriminate; intuition congruence.
  - split; [split; [|reflexivity]|split; [congruence|]].
    + intros _. split; [reflexivity|]. eexists; split; [reflexivity|]. cbn.
      destruct fa, fb; try discriminate; intuition congruence.
    + intros _. split; [reflexivity|eexists; reflexivity].
Qed.
Lemma bind_crypto_spec : forall e c r c', bind_crypto_call e c = (r, c') ->
  (r = OK <-> c_is_init c = true /\ exists f, e = Some f /\ crypto_complete f) /\
  (r <> OK -> c' = c) /\
  (r = OK -> e = Some (c_crypto c') /\ exists a, c' = set_crypto a c).
Proof.
  intros e c r c' H. unfold bind_crypto_call in H. destruct e as [f|].
  2:{ inversion H; subst. split; [split; [discriminate|intros (_ & l & X & _); discriminate]|].
      split; [auto|discriminate]. }
  bind_tac. unfold crypto_complete.
  destruct f as [f1 f2 f3 f4 f5 f6 f7 f8 f9]; cbn [f_mkpair f_agree f_sign f_verify f_extract
    f_expand f_encrypt f_decrypt f_hash] in *.
  destruct (is_none f1 || is_none f2 || is_none f3 || is_none f4 || is_none f5 || is_none f6 ||
            is_none f7 || is_none f8 || is_none f9) eqn:D; inversion H; subst; clear H.
  - split; [split; [discriminate|]|split; [auto|discriminate]].
    intros (_ & g & X & Y). inversion X; subst; cbn in Y.
    destruct f1; [|now destruct Y]; destruct f2; [|tauto]; destruct f3; [|tauto];
    destruct f4; [|tauto]; destruct f5; [|tauto]; destruct f6; [|tauto]; destruct f7; [|tauto];
    destruct f8; [|tauto]; destruct f9; [|tauto]; discriminate.
  - split; [split; [|reflexivity]|split; [congruence|]].
    + intros _. split; [reflexivity|]. eexists; split; [reflexivity|]. cbn.
      repeat (apply orb_false_elim in D as [D ?]).
      destruct f1, f2, f3, f4, f5, f6, f7, f8, f9; try discriminate; repeat split; discriminate.
    + intros _. split; [reflexivity|eexists; reflexivity].
Qed.

Lemma init_spec : forall c r c', context_init c = (r, c') ->
  r = OK /\ c_is_init c' = true /\ wiped c'.
Proof. intros c r c' H. inversion H; subst. split; [reflexivity|]. split; [reflexivity|]. repeat split. Qed.
Lemma deinit_spec : forall c r c', context_deinit c = (r, c') ->
  (r = OK <-> c_is_init c = true) /\ (r <> OK -> c' = c) /\
  (r = OK -> c_is_init c' = false /\ wiped c').
Proof.
  intros c r c' H. unfold context_deinit in H. destruct (c_is_init c); cbn [negb] in H; inversion H; subst.
  - split; [tauto|]. split; [congruence|]. split; [reflexivity|]. repeat split.
  - split; [split; discriminate|]. split; [auto|discriminate].
Qed.
