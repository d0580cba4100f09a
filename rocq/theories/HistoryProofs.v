(** Effect of every API call on the session, and its consequences for whole histories. *)
From Verif Require Import Monad Api Common Msg1 Msg2 Msg3 Msg4 Exporter History Spec Logic Frame
  Calls ConfigProofs.

(** Parameters of [callpost] per message call. *)
Definition msg_of (k : mkind) : Z :=
  match k with M1c | M1p => MSG_1 | M2c | M2p => MSG_2 | M3c | M3p => MSG_3 | M4c | M4p => MSG_4 end.
Definition role_of (k : mkind) : Z :=
  match k with M1c | M2p | M3c | M4p => INITIATOR | M1p | M2c | M3p | M4c => RESPONDER end.
Definition next_of (k : mkind) : Z :=
  match k with
  | M1c => SM_WAIT_M2 | M1p => SM_RECEIVED_M1 | M2c => SM_WAIT_M3 | M2p => SM_VERIFIED_M2
  | M3c | M3p => SM_COMPLETED | M4c | M4p => SM_PERSISTED
  end.
Definition fin_of (k : mkind) : ctx -> ctx :=
  match k with M3c | M3p => set_oscore_ok true | _ => fun c => c end.
Definition sel_of (k : mkind) : ctx -> ctx -> Prop :=
  match k with M1c | M1p => sel_neg | _ => sel_id end.
Definition errs_of (k : mkind) : list Z :=
  match k with
  | M1p => [EC_UNSPECIFIED; EC_WRONG_SUITE]
  | M2p | M3p => [EC_UNSPECIFIED; EC_UNKNOWN_CRED]
  | _ => [EC_UNSPECIFIED]
  end.

Lemma in_state_permitted : forall k c a b d, required k = (a, b, d) ->
  in_state a b d c = true <-> permitted k c.
Proof.
  intros k c a b d H. unfold in_state, permitted. rewrite H.
  rewrite !andb_true_iff, !Z.eqb_eq. split; [intros [[A B] C]; congruence|].
  intro X. inversion X. auto.
Qed.
Lemma in_state_not : forall k c a b d, required k = (a, b, d) ->
  ~ permitted k c -> in_state a b d c = false.
Proof.
  intros k c a b d H N. destruct (in_state a b d c) eqn:X; [|reflexivity].
  now apply (in_state_permitted k) in X.
Qed.

Section History.
Context {E : env}.

(** *** Guards *)
Lemma guard_args : forall a k w, kind a = Some k -> ~ args_ok a ->
  exists o, do_api a w = Ret (E_INVALID_ARG, o) w.
Proof.
  intros a k w Hk Ha. destruct a; cbn [kind] in Hk; try discriminate; cbn [args_ok] in Ha;
    cbn [do_api]; unfold msg_out, no_out, message_1_compose, message_2_compose, message_3_compose,
      message_4_compose, message_1_process, message_2_process, message_3_process, message_4_process.
  all: match goal with
  | |- context [negb ?nn || (?n =? 0)] =>
    assert (X : negb nn || (n =? 0) = true);
    [ destruct nn; cbn [negb orb]; [|reflexivity];
      first [ apply Z.eqb_eq; destruct (Z.eq_dec n 0); [assumption|tauto]
            | destruct msg; [reflexivity|exfalso; apply Ha; split; [reflexivity|discriminate]]]
    | rewrite X; eexists; reflexivity ]
  end.
Qed.
Lemma guard_state : forall a k w, kind a = Some k -> args_ok a -> ~ permitted k (w_ctx w) ->
  exists o, do_api a w = Ret (E_BAD_STATE, o) w.
Proof.
  intros a k w Hk Ha Hp. destruct a; cbn [kind] in Hk; try discriminate; inversion Hk; subst k;
    cbn [args_ok] in Ha; destruct Ha as [-> Hn];
    cbn [do_api]; unfold msg_out, no_out, message_1_compose, message_2_compose, message_3_compose,
      message_4_compose, message_1_process, message_2_process, message_3_process, message_4_process.
  all: match goal with
  | |- context [negb true || (?n =? 0)] =>
    assert (X : n =? 0 = false);
    [ apply Z.eqb_neq; first [assumption | intro Z0; apply zlen_0 in Z0; congruence]
    | rewrite X; cbn [negb orb] ]
  end.
  all: match type of Hp with ~ permitted ?k _ => apply (in_state_not k _ _ _ _ eq_refl) in Hp end.
  all: unfold bind, getc; rewrite Hp; eexists; reflexivity.
Qed.

(** *** What a message call past its guards does *)
Definition post_of (k : mkind) (w : world) (r : Z) (w' : world) : Prop :=
  callpost (msg_of k) (role_of k) (next_of k) (fin_of k) (sel_of k) (errs_of k) w r w'.
Lemma sat_msg_out : forall U m w (Q : Z -> world -> Prop),
  sat U m w (fun r w' => Q (fst r) w') -> sat U (msg_out m) w (fun r w' => Q (fst r) w').
Proof.
  intros U m w Q H. unfold msg_out. apply sat_bind. eapply sat_conseq; [exact H|].
  intros [r b] w' HQ. exact HQ.
Qed.
Lemma sat_no_out : forall U m w (Q : Z -> world -> Prop),
  sat U m w Q -> sat U (no_out m) w (fun r w' => Q (fst r) w').
Proof.
  intros U m w Q H. unfold no_out. apply sat_bind. eapply sat_conseq; [exact H|].
  intros r w' HQ. exact HQ.
Qed.
Lemma msg_post : forall a k w, kind a = Some k -> args_ok a -> permitted k (w_ctx w) ->
  nonneg w -> sat nofree (do_api a) w (fun r w' =>
    post_of k w (fst r) w' /\ closed_unless ((fst r =? E_NO_MEM) && match k with M1c => true | _ => false end) w w').
Proof.
  intros a k w Hk Ha Hp Hn.
  assert (Z0 : forall m : bytes, m <> [] -> zlen m <> 0) by (intros m Hm X; apply zlen_0 in X; congruence).
  destruct a; cbn [kind] in Hk; try discriminate; inversion Hk; subst k;
    cbn [args_ok] in Ha; destruct Ha as [Ha1 Ha2]; cbn [do_api];
    match type of Hp with permitted ?k _ => apply (in_state_permitted k _ _ _ _ eq_refl) in Hp end.
  all: first [ apply sat_msg_out with (Q := fun r w' => post_of _ w r w' /\ closed_unless ((r =? E_NO_MEM) && _) w w')
             | apply sat_no_out with (Q := fun r w' => post_of _ w r w' /\ closed_unless ((r =? E_NO_MEM) && _) w w') ].
  all: eapply sat_conseq;
    [ first [ apply message_1_compose_post | apply message_1_process_post
            | apply message_2_compose_post | apply message_2_process_post
            | apply message_3_compose_post | apply message_3_process_post
            | apply message_4_compose_post | apply message_4_process_post ]; auto |].
  all: cbn beta; intros; match goal with H : _ /\ _ |- _ => destruct H as [H1 H2] end; split; [exact H1|].
  all: first [ right; exact H2 | rewrite andb_true_r; exact H2 ].
Qed.

(** *** All other calls *)
Record other (a : api) (w : world) (r : Z) (w' : world) : Prop := Oth {
  ot_init : c_is_init (w_ctx w') = c_is_init (w_ctx w);
  ot_error : c_error (w_ctx w') = c_error (w_ctx w);
  ot_suites : c_is_init (w_ctx w) = false -> c_csuite_len (w_ctx w') = c_csuite_len (w_ctx w);
  ot_status : c_status (w_ctx w') = c_status (w_ctx w) \/
      SM_COMPLETED <= c_status (w_ctx w) /\ c_status (w_ctx w') = SM_ABORTED /\ r <> OK;
  ot_oscore :
    match a with
    | AKeyUpdate _ _ =>
        (r = OK -> SM_COMPLETED <= c_status (w_ctx w) /\ c_oscore_ok (w_ctx w') = true) /\
        (r <> OK -> c_oscore_ok (w_ctx w') = c_oscore_ok (w_ctx w))
    | AOscore _ _ _ _ _ =>
        (r = OK -> SM_COMPLETED <= c_status (w_ctx w) /\ c_oscore_ok (w_ctx w) = true /\
                   c_oscore_ok (w_ctx w') = false) /\
        (r <> OK -> w' = w \/ c_oscore_ok (w_ctx w') = false)
    | _ => c_oscore_ok (w_ctx w') = c_oscore_ok (w_ctx w)
    end }.

Lemma balanced_refl : forall w, balanced w w.
Proof. intro. split; [now exists []|]. split; [reflexivity|intro; reflexivity]. Qed.
Lemma balanced_trans : forall w w1 w2, balanced w w1 -> balanced w1 w2 -> balanced w w2.
Proof.
  intros w w1 w2 ([t1 A1] & B1 & C1) ([t2 A2] & B2 & C2). split; [|split].
  - exists (t2 ++ t1). rewrite A2, A1. apply app_assoc.
  - intro b. now rewrite B2, B1.
  - intro k. now rewrite C2, C1.
Qed.
Lemma nonneg_balanced : forall w w', nonneg w -> balanced w w' -> nonneg w'.
Proof. intros w w' H (_ & B & _) b. rewrite B. apply H. Qed.
Lemma balanced_wd : forall c c' t, balanced (Wd c t) (Wd c' t).
Proof. intros. split; [now exists []|]. split; [reflexivity|intro; reflexivity]. Qed.

Lemma other_refl : forall a w r, r <> OK -> other a w r w.
Proof. intros a w r H. split; auto. destruct a; try reflexivity; split; auto; congruence. Qed.
Lemma cfg_run : forall f w, cfg f w = Ret (fst (f (w_ctx w)), ONone) (Wd (snd (f (w_ctx w))) (w_tr w)).
Proof. intros. unfold cfg, bind, getc, modify, ret. now destruct (f (w_ctx w)). Qed.
Lemma wd_eta : forall w, Wd (w_ctx w) (w_tr w) = w.
Proof. now destruct w. Qed.

Lemma sat_cfg : forall a f w,
  (forall r c', f (w_ctx w) = (r, c') -> other a w r (Wd c' (w_tr w))) ->
  sat nofree (cfg f) w (fun r w' => balanced w w' /\ other a w (fst r) w').
Proof.
  intros a f w H. unfold sat. rewrite cfg_run. destruct (f (w_ctx w)) as [r c'] eqn:X.
  cbn [fst snd]. split; [|apply H; reflexivity]. rewrite <- (wd_eta w) at 1. apply balanced_wd.
Qed.
Lemma fresh_other : forall a w c', c_is_init (w_ctx w) = true ->
  (c_is_init c', c_error c', c_status c', c_oscore_ok c') =
  (c_is_init (w_ctx w), c_error (w_ctx w), c_status (w_ctx w), c_oscore_ok (w_ctx w)) ->
  is_config a = true -> other a w OK (Wd c' (w_tr w)).
Proof.
  intros a w c' Hi H Ha. injection H; intros. split; cbn [w_ctx]; auto; [congruence|].
  destruct a; try discriminate; assumption.
Qed.
Lemma kept_fields : forall c c', kept c = kept c' ->
  c_is_init c = c_is_init c' /\ c_error c = c_error c' /\ c_csuite_len c = c_csuite_len c' /\
  c_status c = c_status c' /\ c_oscore_ok c = c_oscore_ok c'.
Proof. intros c c' H. unfold kept in H. injection H; intros. repeat split; assumption. Qed.

Lemma other_post : forall a w, kind a = None -> a <> AInit -> a <> ADeinit -> nonneg w ->
  sat nofree (do_api a) w (fun r w' => balanced w w' /\ other a w (fst r) w').
Proof.
  intros a w Hk Hi Hd Hn.
  destruct a; cbn [kind] in Hk; try discriminate; try congruence; cbn [do_api]; clear Hk Hi Hd.
  1-8: apply sat_cfg; intros r c' X; destruct (Z.eq_dec r OK) as [->|Hr].
  all: try match goal with
    | X : set_methods_call _ _ = _ |- _ => destruct (set_methods_spec _ _ _ _ X) as (A & B & C)
    | X : set_cipher_suites_call _ _ = _ |- _ => destruct (set_cipher_suites_spec _ _ _ _ X) as (A & B & C)
    | X : set_connection_id_call _ _ = _ |- _ => destruct (set_connection_id_spec _ _ _ _ X) as (A & B & C)
    | X : set_user_context_call _ _ = _ |- _ => destruct (set_user_context_spec _ _ _ _ X) as (A & B & C)
    | X : bind_ead_call _ _ = _ |- _ => destruct (bind_ead_spec _ _ _ _ X) as (A & B & C)
    | X : bind_keys_call _ _ = _ |- _ => destruct (bind_keys_spec _ _ _ _ X) as (A & B & C)
    | X : bind_crypto_call _ _ = _ |- _ => destruct (bind_crypto_spec _ _ _ _ X) as (A & B & C)
    | X : bind_credentials_call _ _ = _ |- _ => destruct (bind_credentials_spec _ _ _ _ X) as (A & B & C)
    end.
  all: try (rewrite (B Hr), wd_eta; apply other_refl; exact Hr).
  all: try (destruct (proj1 A eq_refl) as [Hi Hx]).
  1-3: destruct Hx as (l & Hl & _); specialize (C eq_refl l Hl).
  1-2: destruct C as (_ & _ & a & b & ->); apply fresh_other; auto.
  1: destruct C as (_ & a & ->); apply fresh_other; auto.
  1-5: destruct (C eq_refl) as (_ & a & ->); apply fresh_other; auto.
  - (* export *)
    apply sat_msg_out with (Q := fun r w' => balanced w w' /\ other _ w r w').
    eapply sat_conseq; [apply export_prk_exporter_fr; exact Hn|]. cbn beta. intros r w' H.
    split.
    + rewrite <- (wd_eta w) in H. apply (balanced_intro _ _ _ _ _ H); [intros []|]; reflexivity.
    + destruct (kept_fields _ _ (st_kept _ _ _ _ H)) as (K1 & K2 & K3 & K4 & K5). split; auto.
  - (* key update *)
    apply sat_no_out with (Q := fun r w' => balanced w w' /\ other _ w r w').
    eapply sat_conseq; [apply export_key_update_post; exact Hn|]. cbn beta.
    intros r w' (B & Ho & Hf). split; [exact B|]. destruct (Z.eq_dec r OK) as [->|Hr].
    + destruct (Ho eq_refl) as (_ & S & _ & K).
      destruct (kept_fields _ _ K) as (K1 & K2 & K3 & K4 & K5). split; auto;
      try (split; [auto|congruence]).
    + destruct (Hf Hr) as [[-> _]|[S K]]; [now apply other_refl|].
      destruct (kept_fields _ _ K) as (K1 & K2 & K3 & K4 & K5). split; auto;
      try (split; [congruence|auto]).
  - (* OSCORE *)
    unfold sat. apply sat_bind.
    eapply sat_conseq; [apply export_oscore_session_post; exact Hn|]. cbn beta.
    intros [r o] w' (B & Ho & Hf). cbn [fst] in *. apply sat_ret. split; [exact B|]. cbn [fst].
    destruct (Z.eq_dec r OK) as [->|Hr].
    + destruct (Ho eq_refl) as (_ & O & S & _ & K).
      destruct (kept_fields _ _ K) as (K1 & K2 & K3 & K4 & K5). split; auto;
      try (split; [auto|congruence]).
    + destruct (Hf Hr) as [[-> _]|(O & S & K)]; [now apply other_refl|].
      destruct (kept_fields _ _ K) as (K1 & K2 & K3 & K4 & K5). split; auto;
      try (split; [congruence|auto]).
  - unfold sat, bind, getc. destruct (error_get_code nn (w_ctx w)) as [r o].
    split; [apply balanced_refl|]. split; auto.
  - unfold sat, bind, getc. destruct (error_get_cipher_suites nn size peer_size (w_ctx w)) as [[r o] q].
    split; [apply balanced_refl|]. split; auto.
Qed.

(** *** One step of a history *)
Lemma runs_nil : forall w rs w', runs [] w = Ret rs w' -> rs = [] /\ w' = w.
Proof. intros w rs w' H. inversion H. auto. Qed.
Lemma runs_cons : forall a l w rs w', runs (a :: l) w = Ret rs w' ->
  exists r w1 rs', do_api a w = Ret r w1 /\ runs l w1 = Ret rs' w' /\ rs = (a, r) :: rs'.
Proof.
  intros a l w rs w' H. cbn [runs] in H. apply bind_inv in H as (r & w1 & H1 & H).
  apply bind_inv in H as (rs' & w2 & H2 & H). inversion H; subst. eauto 6.
Qed.
Lemma runs_app : forall l1 l2 w rs w', runs (l1 ++ l2) w = Ret rs w' ->
  exists rs1 w1 rs2, runs l1 w = Ret rs1 w1 /\ runs l2 w1 = Ret rs2 w' /\ rs = rs1 ++ rs2.
Proof.
  induction l1 as [|a l1 IH]; intros l2 w rs w' H; cbn [app] in H.
  - exists [], w, rs. auto.
  - apply runs_cons in H as (r & w1 & rs' & H1 & H2 & ->).
    apply IH in H2 as (rs1 & w2 & rs2 & H2 & H3 & ->).
    exists ((a, r) :: rs1), w2, rs2. split; [|auto]. cbn [runs]. unfold bind. now rewrite H1, H2.
Qed.

Lemma args_dec : forall a, args_ok a \/ ~ args_ok a.
Proof.
  destruct a; cbn [args_ok]; auto; destruct nn; try (right; intros [X _]; discriminate).
  all: first [ destruct (Z.eq_dec size 0); [right|left]; intuition congruence
             | destruct msg; [right|left]; intuition congruence ].
Qed.
Lemma permitted_dec : forall k c, permitted k c \/ ~ permitted k c.
Proof.
  intros k c. unfold permitted. destruct (required k) as [[a b] d].
  destruct (Z.eq_dec (c_status c) a), (Z.eq_dec (c_th_state c) b), (Z.eq_dec (c_prk_state c) d);
    try (right; congruence). left; congruence.
Qed.

(** The outcome of a message call: refused without effect, or run. *)
Lemma msg_cases : forall a k w r w', kind a = Some k -> nonneg w -> do_api a w = Ret r w' ->
  (w' = w /\ (fst r = E_INVALID_ARG /\ ~ args_ok a \/
               fst r = E_BAD_STATE /\ args_ok a /\ ~ permitted k (w_ctx w))) \/
  (args_ok a /\ permitted k (w_ctx w) /\ post_of k w (fst r) w' /\
   closed_unless ((fst r =? E_NO_MEM) && match k with M1c => true | _ => false end) w w').
Proof.
  intros a k w r w' Hk Hn H. destruct (args_dec a) as [Ha|Ha].
  - destruct (permitted_dec k (w_ctx w)) as [Hp|Hp].
    + right. split; [exact Ha|]. split; [exact Hp|].
      exact (sat_run _ _ _ _ _ _ _ (msg_post _ _ _ Hk Ha Hp Hn) H).
    + left. destruct (guard_state _ _ _ Hk Ha Hp) as [o X]. rewrite X in H. inversion H; subst.
      split; [reflexivity|]. right. auto.
  - left. destruct (guard_args _ _ w Hk Ha) as [o X]. rewrite X in H. inversion H; subst.
    split; [reflexivity|]. left. auto.
Qed.

Lemma init_run : forall w, do_api AInit w = Ret (OK, ONone) (Wd (set_is_init true ctx0) (w_tr w)).
Proof. intro. cbn [do_api]. rewrite cfg_run. reflexivity. Qed.
Lemma deinit_run : forall w r w', do_api ADeinit w = Ret r w' ->
  (fst r = OK /\ c_is_init (w_ctx w) = true /\ w' = Wd ctx0 (w_tr w)) \/
  (fst r = E_BAD_STATE /\ c_is_init (w_ctx w) = false /\ w' = w).
Proof.
  intros w r w' H. cbn [do_api] in H. rewrite cfg_run in H. unfold context_deinit in H.
  destruct (c_is_init (w_ctx w)); cbn in H; inversion H; subst; [left|right]; auto.
  rewrite wd_eta. auto.
Qed.

Lemma step_live : forall a w r w', nonneg w -> do_api a w = Ret r w' ->
  (exists t, w_tr w' = t ++ w_tr w) /\ (forall b, live b (w_tr w') = live b (w_tr w)).
Proof.
  intros a w r w' Hn H. destruct (kind a) as [k|] eqn:Hk.
  - destruct (msg_cases _ _ _ _ _ Hk Hn H) as [(-> & _)|(_ & _ & [A B C D] & _)]; [|auto].
    split; [now exists []|reflexivity].
  - assert (Q : a = AInit \/ a = ADeinit \/ (a <> AInit /\ a <> ADeinit))
      by (destruct a; auto; right; right; split; discriminate).
    destruct Q as [->|[->|[Q1 Q2]]].
    + rewrite init_run in H. inversion H; subst. split; [now exists []|reflexivity].
    + destruct (deinit_run _ _ _ H) as [(_ & _ & ->)|(_ & _ & ->)]; (split; [now exists []|reflexivity]).
    + pose proof (sat_run _ _ _ _ _ _ _ (other_post _ _ Hk Q1 Q2 Hn) H) as [(A & B & _) _]. auto.
Qed.
Lemma step_nonneg : forall a w r w', nonneg w -> do_api a w = Ret r w' -> nonneg w'.
Proof. intros a w r w' Hn H b. destruct (step_live _ _ _ _ Hn H) as [_ B]. rewrite B. apply Hn. Qed.

(** *** Aborted sessions stay dead *)
Definition dead (c : ctx) : Prop :=
  c_status c = SM_ABORTED \/
  (c_is_init c = false /\ c_csuite_len c = 0 /\ c_status c = SM_START).

Lemma m1_no_suite : forall a k w r w', kind a = Some k -> k = M1c \/ k = M1p ->
  args_ok a -> permitted k (w_ctx w) -> c_csuite_len (w_ctx w) = 0 ->
  do_api a w = Ret r w' -> fst r <> OK.
Proof.
  intros a k w r w' Hk Hk' Ha Hp Hc H.
  destruct a; cbn [kind] in Hk; try discriminate; inversion Hk; subst k;
    try (destruct Hk'; discriminate); cbn [args_ok] in Ha; destruct Ha as [-> Ha];
    match type of Hp with permitted ?k _ => apply (in_state_permitted k _ _ _ _ eq_refl) in Hp end;
    cbn [do_api] in H.
  - apply Z.eqb_neq in Ha. unfold msg_out, message_1_compose in H. rewrite Ha in H.
    cbn [negb orb] in H. unfold bind, getc, enter, modify in H. rewrite Hp, Hc in H. cbn in H.
    inversion H; subst. discriminate.
  - assert (Ha' : zlen msg <> 0) by (intro X; apply zlen_0 in X; congruence). apply Z.eqb_neq in Ha'.
    unfold no_out, message_1_process in H. rewrite Ha' in H. cbn [negb orb] in H.
    unfold bind, getc, enter, modify in H. rewrite Hp, Hc in H.
    destruct (dec_message_1 cf_canon msg) as [[dok d] rest]. cbn in H.
    destruct (negb dok && (zlen msg <=? (if dok then zlen msg - zlen rest else 0)));
      inversion H; subst; discriminate.
Qed.

Lemma dead_step : forall a w r w', a <> AInit -> nonneg w -> dead (w_ctx w) ->
  do_api a w = Ret r w' ->
  dead (w_ctx w') /\ (kind a <> None -> fst r <> OK) /\
  (match a with AKeyUpdate _ _ | AOscore _ _ _ _ _ => fst r <> OK | _ => True end).
Proof.
  intros a w r w' Ha Hn Hd H. destruct (kind a) as [k|] eqn:Hk.
  - assert (X : match a with AKeyUpdate _ _ | AOscore _ _ _ _ _ => fst r <> OK | _ => True end)
      by (destruct a; try exact I; discriminate).
    destruct (msg_cases _ _ _ _ _ Hk Hn H) as [(-> & Y)|(A1 & A2 & [C1 C2 C3 C4] & _)].
    + split; [exact Hd|]. split; [|exact X]. intros _. destruct Y as [[Y _]|[Y _]]; rewrite Y; discriminate.
    + assert (Hs : c_status (w_ctx w) = SM_START).
      { destruct Hd as [Hd|(_ & _ & Hd)]; [|exact Hd]. exfalso. unfold permitted in A2.
        rewrite Hd in A2. destruct k; discriminate A2. }
      destruct Hd as [Hd|(D1 & D2 & _)]; [rewrite Hd in Hs; discriminate|].
      assert (K : k = M1c \/ k = M1p).
      { unfold permitted in A2. rewrite Hs in A2. destruct k; auto; discriminate A2. }
      assert (R : fst r <> OK) by (eapply m1_no_suite; eauto).
      split; [|split; [intros _; exact R|exact X]]. left.
      destruct (C3 R) as (e & c1 & _ & _ & Q). apply kept_fields in Q as (_ & _ & _ & Q & _). exact Q.
  - destruct a; try congruence; try (discriminate Hk);
      try (match type of H with do_api ?x _ = _ =>
        pose proof (sat_run _ _ _ _ _ _ _ (other_post x w Hk ltac:(discriminate) ltac:(discriminate) Hn) H) as [_ O] end;
        destruct O as [O1 O2 O3 O4 O5];
        split; [ destruct Hd as [Hd|(D1 & D2 & D3)];
                 [ left; destruct O4 as [O4|(O4 & O4' & _)]; congruence
                 | destruct O4 as [O4|(O4 & _)];
                   [ right; rewrite O1, O4, (O3 D1); auto
                   | rewrite D3 in O4; exfalso; apply O4; reflexivity]]
               | split; [congruence|] ];
        try exact I;
        intro R; destruct O5 as [O5 _]; destruct (O5 R) as [O6 _];
        destruct Hd as [Hd|(_ & _ & Hd)]; rewrite Hd in O6; apply O6; reflexivity).
    destruct (deinit_run _ _ _ H) as [(R & D & ->)|(R & D & ->)].
    + split; [right; repeat split|]. split; [congruence|exact I].
    + split; [exact Hd|]. split; [congruence|exact I].
Qed.

Lemma dead_runs : forall l w rs w', nonneg w -> dead (w_ctx w) -> ~ In AInit l ->
  runs l w = Ret rs w' ->
  dead (w_ctx w') /\
  Forall (fun r => kind (rcall r) <> None \/
                   match rcall r with AKeyUpdate _ _ | AOscore _ _ _ _ _ => True | _ => False end ->
                   rval r <> OK) rs.
Proof.
  induction l as [|a l IH]; intros w rs w' Hn Hd Hi H.
  - apply runs_nil in H as [-> ->]. auto.
  - apply runs_cons in H as (r & w1 & rs' & H1 & H2 & ->).
    assert (Ha : a <> AInit) by (intro X; apply Hi; left; auto).
    destruct (dead_step _ _ _ _ Ha Hn Hd H1) as (D & R1 & R2).
    destruct (IH w1 rs' w' (step_nonneg _ _ _ _ Hn H1) D) as [D' F]; auto.
    { intro X. apply Hi. now right. }
    split; [exact D'|]. constructor; [|exact F]. unfold rcall, rval. cbn [fst snd].
    intros [X|X]; [auto|]. destruct a; try contradiction; exact R2.
Qed.
End History.
