(** Invariants over histories: message order, OSCORE permission, error code, resources. *)
From Verif Require Import Monad Api Common Msg1 Msg2 Msg3 Msg4 Exporter History Spec Logic Frame
  Calls ConfigProofs HistoryProofs.

Definition fresh (w : world) : Prop := w_ctx w = set_is_init true ctx0 /\ nonneg w.

(** What status says about the message calls that have succeeded. *)
Definition order_inv (c : ctx) (s : list mkind) : Prop :=
  c_status c = SM_START /\ (s = [] \/ dead c) \/
  c_status c = SM_ABORTED \/
  c_status c = SM_WAIT_M2 /\ s = [M1c] \/
  c_status c = SM_RECEIVED_M1 /\ s = [M1p] \/
  c_status c = SM_VERIFIED_M2 /\ s = [M1c; M2p] \/
  c_status c = SM_WAIT_M3 /\ s = [M1p; M2c] \/
  (c_status c = SM_COMPLETED \/ c_status c = SM_PERSISTED) /\ full_handshake s.

Lemma succeeded_app : forall a b, succeeded (a ++ b) = succeeded a ++ succeeded b.
Proof. intros. unfold succeeded. apply flat_map_app. Qed.
Lemma armed_app : forall a r, armed (a ++ [r]) = arms (armed a) r.
Proof. intros. unfold armed. now rewrite fold_left_app. Qed.

Section Session.
Context {E : env}.

Lemma order_step : forall a w r w' s, a <> AInit -> nonneg w -> order_inv (w_ctx w) s ->
  do_api a w = Ret r w' -> order_inv (w_ctx w') (s ++ succeeded [(a, r)]).
Proof.
  intros a w r w' s Ha Hn Hi H. unfold succeeded. cbn [flat_map]. rewrite app_nil_r.
  unfold rcall, rval. cbn [fst snd].
  destruct (kind a) as [k|] eqn:Hk.
  - destruct (msg_cases _ _ _ _ _ Hk Hn H) as [(-> & Y)|(A1 & A2 & [C1 C2 C3 C4] & _)].
    + replace (match k with M4c | M4p => [] | _ => if fst r =? OK then [k] else [] end) with (@nil mkind).
      2:{ destruct Y as [[-> _]|[-> _]]; destruct k; reflexivity. }
      rewrite app_nil_r. destruct k; exact Hi.
    + destruct (Z.eq_dec (fst r) OK) as [R|R].
      * rewrite R. cbn [Z.eqb OK]. destruct (C4 R) as (c1 & Sel & Q).
        apply kept_fields in Q as (_ & _ & _ & Q & _).
        assert (Sd : k = M1c \/ k = M1p -> s = []).
        { intro K. destruct Hi as [[Hs [Hi|Hd]]|Hi]; [exact Hi| |].
          - exfalso. destruct Hd as [Hd|(_ & D2 & _)]; [rewrite Hs in Hd; discriminate|].
            eapply (m1_no_suite a k); eauto.
          - exfalso. assert (c_status (w_ctx w) = SM_START).
            { unfold permitted in A2. destruct K as [->| ->]; injection A2; auto. }
            destruct Hi as [Hi|[[Hi _]|[[Hi _]|[[Hi _]|[[Hi _]|[[Hi|Hi] _]]]]]]; rewrite Hi in *; discriminate. }
        unfold permitted in A2. injection A2 as A2 _ _ || idtac.
        destruct k; cbn [next_of fin_of] in Q; cbn [required] in A2;
          try (rewrite (Sd ltac:(auto))); cbn [app];
          (match type of A2 with c_status _ = _ => idtac | _ => injection A2; clear A2; intros _ _ A2 end).
        -- do 2 right. left. split; [exact Q|reflexivity].
        -- do 3 right. left. split; [exact Q|reflexivity].
        -- destruct Hi as [[Hi _]|[Hi|[[Hi _]|[[Hi ->]|[[Hi _]|[[Hi _]|[[Hi|Hi] _]]]]]]]; rewrite A2 in Hi; try discriminate.
           do 5 right. left. split; [exact Q|reflexivity].
        -- destruct Hi as [[Hi _]|[Hi|[[Hi ->]|[[Hi _]|[[Hi _]|[[Hi _]|[[Hi|Hi] _]]]]]]]; rewrite A2 in Hi; try discriminate.
           do 4 right. left. split; [exact Q|reflexivity].
        -- destruct Hi as [[Hi _]|[Hi|[[Hi _]|[[Hi _]|[[Hi ->]|[[Hi _]|[[Hi|Hi] _]]]]]]]; rewrite A2 in Hi; try discriminate.
           do 6 right. split; [left; exact Q|left; reflexivity].
        -- destruct Hi as [[Hi _]|[Hi|[[Hi _]|[[Hi _]|[[Hi _]|[[Hi ->]|[[Hi|Hi] _]]]]]]]; rewrite A2 in Hi; try discriminate.
           do 6 right. split; [left; exact Q|right; reflexivity].
        -- rewrite app_nil_r.
           destruct Hi as [[Hi _]|[Hi|[[Hi _]|[[Hi _]|[[Hi _]|[[Hi _]|[[Hi|Hi] F]]]]]]]; rewrite A2 in Hi; try discriminate.
           do 6 right. split; [right; exact Q|exact F].
        -- rewrite app_nil_r.
           destruct Hi as [[Hi _]|[Hi|[[Hi _]|[[Hi _]|[[Hi _]|[[Hi _]|[[Hi|Hi] F]]]]]]]; rewrite A2 in Hi; try discriminate.
           do 6 right. split; [right; exact Q|exact F].
      * right. left. destruct (C3 R) as (e & c1 & _ & _ & Q).
        apply kept_fields in Q as (_ & _ & _ & Q & _). exact Q.
  - rewrite app_nil_r.
    assert (Q : a = ADeinit \/ a <> ADeinit) by (destruct a; auto; right; discriminate).
    destruct Q as [->|Q].
    + destruct (deinit_run _ _ _ H) as [(R & D & ->)|(R & D & ->)]; [|exact Hi].
      left. split; [reflexivity|]. right. right. repeat split.
    + pose proof (sat_run _ _ _ _ _ _ _ (other_post _ _ Hk Ha Q Hn) H) as [_ [O1 O2 O3 O4 O5]].
      destruct O4 as [O4|(O4 & O4' & _)]; [|right; left; exact O4'].
      unfold order_inv in *. rewrite O4. unfold dead in *. rewrite O4, O1.
      destruct Hi as [[Hi [Hi'|Hd]]|Hi]; [left; auto| |right; exact Hi].
      left. split; [exact Hi|]. right. destruct Hd as [Hd|(D1 & D2 & D3)]; [left; exact Hd|].
      right. rewrite (O3 D1). auto.
Qed.
Lemma order_runs : forall l w rs w' s, ~ In AInit l -> nonneg w -> order_inv (w_ctx w) s ->
  runs l w = Ret rs w' -> order_inv (w_ctx w') (s ++ succeeded rs).
Proof.
  induction l as [|a l IH]; intros w rs w' s Ha Hn Hi H.
  - apply runs_nil in H as [-> ->]. now rewrite app_nil_r.
  - apply runs_cons in H as (r & w1 & rs' & H1 & H2 & ->).
    change ((a, r) :: rs') with ([(a, r)] ++ rs'). rewrite succeeded_app, app_assoc.
    apply (IH w1); auto.
    + intro X. apply Ha. now right.
    + eapply step_nonneg; eauto.
    + eapply order_step; eauto. intro X. apply Ha. now left.
Qed.
Lemma completed_only : forall l w rs w', fresh w -> ~ In AInit l -> runs l w = Ret rs w' ->
  c_status (w_ctx w') = SM_COMPLETED \/ c_status (w_ctx w') = SM_PERSISTED ->
  full_handshake (succeeded rs).
Proof.
  intros l w rs w' [Hf Hn] Ha H Hs.
  assert (I : order_inv (w_ctx w') ([] ++ succeeded rs)).
  { eapply order_runs; eauto. rewrite Hf. left. split; [reflexivity|left; reflexivity]. }
  destruct I as [[I _]|[I|[[I _]|[[I _]|[[I _]|[[I _]|[_ I]]]]]]]; try exact I;
    rewrite I in Hs; destruct Hs; discriminate.
Qed.

(** *** OSCORE permission *)
Lemma armed_step : forall a w r w' rs, a <> AInit -> nonneg w ->
  (c_oscore_ok (w_ctx w) = true -> armed rs = true) -> do_api a w = Ret r w' ->
  (c_oscore_ok (w_ctx w') = true -> armed (rs ++ [(a, r)]) = true) /\
  (is_oscore a = true -> fst r = OK -> armed rs = true).
Proof.
  intros a w r w' rs Ha Hn Hi H. rewrite armed_app. unfold arms, rval, rcall. cbn [fst snd].
  destruct (kind a) as [k|] eqn:Hk.
  - split; [|destruct a; discriminate].
    destruct (msg_cases _ _ _ _ _ Hk Hn H) as [(-> & Y)|(A1 & A2 & [C1 C2 C3 C4] & _)].
    + replace (fst r =? OK) with false; [exact Hi|]. destruct Y as [[-> _]|[-> _]]; reflexivity.
    + destruct (Z.eq_dec (fst r) OK) as [R|R].
      * rewrite R. cbn [Z.eqb OK]. destruct (C4 R) as (c1 & Sel & Q).
        apply kept_fields in Q as (_ & _ & _ & _ & Q).
        intro X. destruct a; try (discriminate Hk); try reflexivity; apply Hi; rewrite <- X, Q;
          inversion Hk; subst k; cbn [sel_of] in Sel;
          try (rewrite Sel; reflexivity); destruct Sel as (i & m & ->); reflexivity.
      * apply Z.eqb_neq in R. rewrite R. apply Z.eqb_neq in R. destruct (C3 R) as (e & c1 & _ & Sel & Q).
        apply kept_fields in Q as (_ & _ & _ & _ & Q). intro X. apply Hi. rewrite <- X, Q.
        destruct k; cbn [sel_of] in Sel;
          try (rewrite Sel; reflexivity); destruct Sel as (i & m & ->); reflexivity.
  - assert (Q : a = ADeinit \/ a <> ADeinit) by (destruct a; auto; right; discriminate).
    destruct Q as [->|Q].
    + split; [|discriminate].
      destruct (deinit_run _ _ _ H) as [(R & D & ->)|(R & D & ->)]; rewrite R; cbn.
      * discriminate.
      * exact Hi.
    + pose proof (sat_run _ _ _ _ _ _ _ (other_post _ _ Hk Ha Q Hn) H) as [_ [O1 O2 O3 O4 O5]].
      destruct (fst r =? OK) eqn:R; [apply Z.eqb_eq in R|apply Z.eqb_neq in R].
      * destruct a; try congruence; try (discriminate Hk);
          try (split; [rewrite O5; exact Hi|discriminate]);
          try (split; [reflexivity|discriminate]).
        destruct O5 as [O5 _]. destruct (O5 R) as (_ & T & F). split; [congruence|auto].
      * split; [|congruence].
        destruct a; try congruence; try (discriminate Hk); try (rewrite O5; exact Hi).
        -- destruct O5 as [_ O5]. rewrite (O5 R). exact Hi.
        -- destruct O5 as [_ O5]. destruct (O5 R) as [->|O6]; [exact Hi|congruence].
Qed.
Lemma armed_runs : forall l w rs w' pre, ~ In AInit l -> nonneg w ->
  (c_oscore_ok (w_ctx w) = true -> armed pre = true) -> runs l w = Ret rs w' ->
  forall r1 x r2, rs = r1 ++ x :: r2 -> is_oscore (rcall x) = true -> rval x = OK ->
  armed (pre ++ r1) = true.
Proof.
  induction l as [|a l IH]; intros w rs w' pre Ha Hn Hi H r1 x r2 Hr Ho Hx.
  - apply runs_nil in H as [-> ->]. destruct r1; discriminate.
  - apply runs_cons in H as (r & w1 & rs' & H1 & H2 & ->).
    destruct (armed_step a w r w1 pre) as [S1 S2]; auto. { intro X. apply Ha. now left. }
    destruct r1 as [|y r1]; cbn [app] in Hr; injection Hr; clear Hr.
    + intros _ <-. rewrite app_nil_r. apply S2; assumption.
    + intros Hr <-. change ((a, r) :: r1) with ([(a, r)] ++ r1). rewrite app_assoc.
      eapply (IH w1 rs' w' (pre ++ [(a, r)])); eauto.
      * intro X. apply Ha. now right.
      * eapply step_nonneg; eauto.
Qed.
Lemma oscore_armed : forall l w rs w' r1 x r2, fresh w -> ~ In AInit l ->
  runs l w = Ret rs w' -> rs = r1 ++ x :: r2 -> is_oscore (rcall x) = true -> rval x = OK ->
  armed r1 = true.
Proof.
  intros l w rs w' r1 x r2 [Hf Hn] Ha H Hr Ho Hx.
  apply (armed_runs l w rs w' [] Ha Hn) with (x := x) (r2 := r2); auto. rewrite Hf. discriminate.
Qed.
(** A failed attempt past the argument and state checks aborts the session. *)
Lemma oscore_failed : forall a b c d e w r w', nonneg w ->
  do_api (AOscore a b c d e) w = Ret r w' -> fst r <> OK -> w' <> w -> c_status (w_ctx w') = SM_ABORTED.
Proof.
  intros a b c d e w r w' Hn H Hr Hw. cbn [do_api] in H.
  apply bind_inv in H as ([r0 o] & w1 & H & H'). inversion H'; subst. cbn [fst] in Hr.
  pose proof (sat_run _ _ _ _ _ _ _ (export_oscore_session_post a b c d e w Hn) H) as (_ & _ & F).
  cbn [fst] in F. destruct (F Hr) as [[-> _]|(_ & _ & K)]; [congruence|].
  apply kept_fields in K as (_ & _ & _ & K & _). exact K.
Qed.

(** *** Error code *)
Lemma quiet_step : forall a w r w', a <> AInit -> a <> ADeinit -> nonneg w ->
  ~ past_guards a w -> do_api a w = Ret r w' -> c_error (w_ctx w') = c_error (w_ctx w).
Proof.
  intros a w r w' Ha Hd Hn Hp H. destruct (kind a) as [k|] eqn:Hk.
  - destruct (msg_cases _ _ _ _ _ Hk Hn H) as [(-> & Y)|(A1 & A2 & _)]; [reflexivity|].
    exfalso. apply Hp. exists k. auto.
  - pose proof (sat_run _ _ _ _ _ _ _ (other_post _ _ Hk Ha Hd Hn) H) as [_ O]. apply O.
Qed.
Lemma quiet_runs : forall l w rs w', nonneg w -> quiet l w -> runs l w = Ret rs w' ->
  c_error (w_ctx w') = c_error (w_ctx w).
Proof.
  induction l as [|a l IH]; intros w rs w' Hn Hq H.
  - apply runs_nil in H as [-> ->]. reflexivity.
  - apply runs_cons in H as (r & w1 & rs' & H1 & H2 & ->).
    cbn [quiet] in Hq. destruct Hq as (Q1 & Q2 & Q3 & Q4). rewrite H1 in Q4.
    rewrite (IH w1 rs' w'); auto; [|eapply step_nonneg; eauto]. eapply quiet_step; eauto.
Qed.
Lemma error_of_call : forall a w r w', nonneg w -> past_guards a w -> do_api a w = Ret r w' ->
  (fst r = OK -> c_error (w_ctx w') = EC_SUCCESS) /\
  (fst r <> OK -> c_status (w_ctx w') = SM_ABORTED /\
     (c_error (w_ctx w') = EC_UNSPECIFIED \/
      c_error (w_ctx w') = EC_WRONG_SUITE /\ kind a = Some M1p \/
      c_error (w_ctx w') = EC_UNKNOWN_CRED /\ (kind a = Some M2p \/ kind a = Some M3p))).
Proof.
  intros a w r w' Hn (k & Hk & Ha & Hp) H.
  destruct (msg_cases _ _ _ _ _ Hk Hn H) as [(_ & [[_ Y]|(_ & _ & Y)])|(_ & _ & [C1 C2 C3 C4] & _)];
    [contradiction|contradiction|]. split.
  - intro R. destruct (C4 R) as (c1 & Sel & Q). apply kept_fields in Q as (_ & Q & _ & _ & _).
    rewrite Q. destruct k; reflexivity.
  - intro R. destruct (C3 R) as (e & c1 & He & Sel & Q). apply kept_fields in Q as (_ & Q & _ & Q' & _).
    split; [exact Q'|]. rewrite Q. change (c_error _) with e. rewrite Hk.
    destruct k; cbn [errs_of In] in He; intuition (subst; auto).
Qed.

(** *** Handles *)
Lemma step_handles : forall a w r w', nonneg w -> do_api a w = Ret r w' ->
  (kind a = Some M1c /\ fst r = E_NO_MEM) \/
  (forall h, handles h (w_tr w') = handles h (w_tr w)).
Proof.
  intros a w r w' Hn H. destruct (kind a) as [k|] eqn:Hk.
  - destruct (msg_cases _ _ _ _ _ Hk Hn H) as [(-> & Y)|(A1 & A2 & _ & [B|C])]; [auto| |auto].
    left. apply andb_prop in B as [B1 B2]. apply Z.eqb_eq in B1. destruct k; try discriminate. auto.
  - right.
    assert (Q : a = AInit \/ a = ADeinit \/ (a <> AInit /\ a <> ADeinit))
      by (destruct a; auto; right; right; split; discriminate).
    destruct Q as [->|[->|[Q1 Q2]]].
    + rewrite init_run in H. inversion H; subst. reflexivity.
    + destruct (deinit_run _ _ _ H) as [(_ & _ & ->)|(_ & _ & ->)]; reflexivity.
    + pose proof (sat_run _ _ _ _ _ _ _ (other_post _ _ Hk Q1 Q2 Hn) H) as [(A & B & C) _]. exact C.
Qed.
Lemma step_ub : forall a w u, nonneg w -> do_api a w = Ub u -> u <> UbFree.
Proof.
  intros a w u Hn H. destruct (kind a) as [k|] eqn:Hk.
  - destruct (args_dec a) as [Ha|Ha].
    + destruct (permitted_dec k (w_ctx w)) as [Hp|Hp].
      * exact (sat_ub _ _ _ _ _ _ (msg_post _ _ _ Hk Ha Hp Hn) H).
      * destruct (guard_state _ _ _ Hk Ha Hp) as [o X]. congruence.
    + destruct (guard_args _ _ w Hk Ha) as [o X]. congruence.
  - assert (Q : a = AInit \/ a = ADeinit \/ (a <> AInit /\ a <> ADeinit))
      by (destruct a; auto; right; right; split; discriminate).
    destruct Q as [->|[->|[Q1 Q2]]].
    + rewrite init_run in H. discriminate.
    + cbn [do_api] in H. rewrite cfg_run in H. discriminate.
    + exact (sat_ub _ _ _ _ _ _ (other_post _ _ Hk Q1 Q2 Hn) H).
Qed.

(** *** Statements over reachable worlds *)
Lemma runs_nonneg : forall l w rs w', nonneg w -> runs l w = Ret rs w' -> nonneg w'.
Proof.
  induction l as [|a l IH]; intros w rs w' Hn H.
  - apply runs_nil in H as [_ ->]. exact Hn.
  - apply runs_cons in H as (r & w1 & rs' & H1 & H2 & _). eapply IH; [|exact H2].
    eapply step_nonneg; eauto.
Qed.
Lemma reachable_nonneg : forall w, reachable w -> nonneg w.
Proof. intros w (c & l & rs & H). eapply runs_nonneg; [|exact H]. intro b. reflexivity || (cbn; lia). Qed.

Lemma config_refused : forall a w r w', c_is_init (w_ctx w) = false -> is_config a = true ->
  do_api a w = Ret r w' -> fst r <> OK /\ w' = w.
Proof.
  intros a w r w' Hi Ha H. destruct a; try discriminate; cbn [do_api] in H; rewrite cfg_run in H;
    inversion H; subst; cbn [fst]; clear H.
  all: match goal with |- context [ ?f ?x ?c ] =>
         destruct (f x c) as [r0 c0] eqn:X end; cbn [fst snd].
  all: first [ apply set_methods_spec in X as (P & Q & _) | apply set_cipher_suites_spec in X as (P & Q & _)
    | apply set_connection_id_spec in X as (P & Q & _) | apply set_user_context_spec in X as (P & Q & _)
    | apply bind_ead_spec in X as (P & Q & _) | apply bind_keys_spec in X as (P & Q & _)
    | apply bind_crypto_spec in X as (P & Q & _) | apply bind_credentials_spec in X as (P & Q & _) ].
  all: assert (N : r0 <> OK) by (intro R; apply P in R; destruct R; congruence);
    split; [exact N|rewrite (Q N); apply wd_eta].
Qed.

Lemma message_guard : forall a k w, kind a = Some k -> ~ (args_ok a /\ permitted k (w_ctx w)) ->
  exists r o, do_api a w = Ret (r, o) w /\ (r = E_BAD_STATE \/ r = E_INVALID_ARG) /\
              (args_ok a -> r = E_BAD_STATE).
Proof.
  intros a k w Hk Hn. destruct (args_dec a) as [Ha|Ha].
  - destruct (guard_state a k w Hk Ha) as [o H]; [tauto|]. exists E_BAD_STATE, o. auto.
  - destruct (guard_args a k w Hk Ha) as [o H]. exists E_INVALID_ARG, o. repeat split; auto. contradiction.
Qed.

Lemma dead_session : forall w l rs w', reachable w -> c_status (w_ctx w) = SM_ABORTED ->
  ~ In AInit l -> runs l w = Ret rs w' ->
  Forall (fun r => needs_session (rcall r) -> rval r <> OK) rs.
Proof.
  intros w l rs w' Hr Hs Ha H.
  destruct (dead_runs l w rs w' (reachable_nonneg _ Hr) (or_introl Hs) Ha H) as [_ F]. exact F.
Qed.
Lemma dead_after_deinit : forall w l rs w', reachable w -> c_is_init (w_ctx w) = true ->
  ~ In AInit l -> runs (ADeinit :: l) w = Ret rs w' ->
  exists rs1, rs = (ADeinit, (OK, ONone)) :: rs1 /\
  Forall (fun r => needs_session (rcall r) \/ is_config (rcall r) = true -> rval r <> OK) rs1.
Proof.
  intros w l rs w' Hr Hi Ha H. apply runs_cons in H as (r & w1 & rs1 & H1 & H2 & ->).
  exists rs1. pose proof (deinit_run _ _ _ H1) as [(R & _ & D)|(_ & X & _)]; [|congruence].
  split.
  - cbn [do_api] in H1. rewrite cfg_run in H1. unfold context_deinit in H1. rewrite Hi in H1.
    inversion H1; reflexivity.
  - assert (Hn : nonneg w1) by (eapply step_nonneg; [|exact H1]; apply reachable_nonneg; exact Hr).
    assert (Q : dead (w_ctx w1) /\ c_is_init (w_ctx w1) = false).
    { rewrite D. split; [|reflexivity]. right. repeat split. }
    clear - Hn Q Ha H2. destruct Q as [Hd Hi]. revert w1 rs1 Hn Hd Hi H2.
    induction l as [|a l IH]; intros w1 rs1 Hn Hd Hi H2.
    + apply runs_nil in H2 as [-> _]. constructor.
    + apply runs_cons in H2 as (r & w2 & rs2 & H3 & H4 & ->).
      assert (Na : a <> AInit) by (intro X; apply Ha; now left).
      destruct (dead_step a w1 r w2 Na Hn Hd H3) as (D2 & K & KU).
      constructor.
      * unfold rval, rcall. cbn [fst snd]. intros [[S|S]|C].
        -- now apply K.
        -- destruct a; try contradiction; exact KU.
        -- now apply (config_refused a w1 r w2 Hi C H3).
      * apply (IH ltac:(intro X; apply Ha; now right) w2); auto.
        -- eapply step_nonneg; eauto.
        -- destruct (kind a) as [k|] eqn:Hk.
           ++ destruct (msg_cases _ _ _ _ _ Hk Hn H3) as [(-> & _)|(A1 & A2 & [C1 C2 C3 C4] & _)]; [exact Hi|].
              assert (R : fst r <> OK) by (apply K; discriminate).
              destruct (C3 R) as (e & c1 & _ & Sel & Q). apply kept_fields in Q as (Q & _).
              rewrite Q. rewrite <- Hi.
              destruct k; cbn [sel_of] in Sel;
                try (rewrite Sel; reflexivity); destruct Sel as (i & m & ->); reflexivity.
           ++ assert (Q : a = ADeinit \/ a <> ADeinit) by (destruct a; auto; right; discriminate).
              destruct Q as [->|Q].
              ** destruct (deinit_run _ _ _ H3) as [(_ & X & _)|(_ & _ & ->)]; [congruence|exact Hi].
              ** pose proof (sat_run _ _ _ _ _ _ _ (other_post _ _ Hk Na Q Hn) H3) as [_ O].
                 rewrite (ot_init _ _ _ _ O). exact Hi.
Qed.

Lemma complete_handshake : forall w0 l rs w', reachable w0 -> ~ In AInit l ->
  runs (AInit :: l) w0 = Ret rs w' ->
  c_status (w_ctx w') = SM_COMPLETED \/ c_status (w_ctx w') = SM_PERSISTED ->
  full_handshake (succeeded rs).
Proof.
  intros w0 l rs w' Hr Ha H Hs. apply runs_cons in H as (r & w1 & rs1 & H1 & H2 & ->).
  rewrite init_run in H1. inversion H1; subst. change (full_handshake (succeeded rs1)).
  eapply completed_only; eauto. split; [reflexivity|].
  intro b. apply (reachable_nonneg _ Hr).
Qed.
Lemma oscore_permission : forall w0 l rs w' r1 x r2, reachable w0 -> ~ In AInit l ->
  runs (AInit :: l) w0 = Ret rs w' -> rs = r1 ++ x :: r2 ->
  is_oscore (rcall x) = true -> rval x = OK -> armed r1 = true.
Proof.
  intros w0 l rs w' r1 x r2 Hr Ha H Hx Ho Hv. apply runs_cons in H as (r & w1 & rs1 & H1 & H2 & ->).
  rewrite init_run in H1. inversion H1; subst.
  destruct r1 as [|y r1]; cbn [app] in Hx; injection Hx; clear Hx.
  - intros _ <-. discriminate.
  - intros Hx <-. assert (A : armed r1 = true).
    { eapply (oscore_armed l); eauto. split; [reflexivity|]. intro b. apply (reachable_nonneg _ Hr). }
    rewrite <- A. unfold armed. reflexivity.
Qed.
Lemma armed_source : forall rs b, fold_left arms rs b = true -> b = true \/
  Exists (fun z => rval z = OK /\ match rcall z with
      AM3Compose _ _ | AM3Process _ _ | AKeyUpdate _ _ => True | _ => False end) rs.
Proof.
  induction rs as [|z rs IH]; intros b H; [now left|]. cbn [fold_left] in H.
  apply IH in H as [H|H]; [|right; now apply Exists_cons_tl].
  unfold arms in H. destruct (rval z =? OK) eqn:R; [|now left]. apply Z.eqb_eq in R.
  destruct (rcall z) eqn:Q; try (now left); try discriminate;
    right; apply Exists_cons_hd; rewrite Q; auto.
Qed.
Lemma oscore_one_shot : forall w0 l rs w' r1 x r2 y r3, reachable w0 -> ~ In AInit l ->
  runs (AInit :: l) w0 = Ret rs w' -> rs = r1 ++ x :: r2 ++ y :: r3 ->
  is_oscore (rcall x) = true -> rval x = OK -> is_oscore (rcall y) = true -> rval y = OK ->
  Exists (fun z => rval z = OK /\ match rcall z with
      AM3Compose _ _ | AM3Process _ _ | AKeyUpdate _ _ => True | _ => False end) r2.
Proof.
  intros w0 l rs w' r1 x r2 y r3 Hr Ha H Hx Xo Xv Yo Yv.
  assert (A : armed (r1 ++ x :: r2) = true).
  { eapply oscore_permission; eauto. rewrite Hx. rewrite <- app_assoc. reflexivity. }
  unfold armed in A. rewrite fold_left_app in A. cbn [fold_left] in A.
  assert (B : forall b, arms b x = false).
  { intro b. unfold arms. rewrite Xv. destruct (rcall x); try discriminate. reflexivity. }
  rewrite B in A. apply armed_source in A as [A|A]; [discriminate|exact A].
Qed.

Lemma error_code_tracks : forall w a r w1 l rs w2 v code w3, reachable w -> past_guards a w ->
  do_api a w = Ret r w1 -> quiet l w1 -> runs l w1 = Ret rs w2 ->
  do_api (AErrCode true) w2 = Ret (v, OCode (Some code)) w3 ->
  v = OK /\ w3 = w2 /\ (code = EC_SUCCESS <-> fst r = OK) /\
  (fst r <> OK -> code = EC_UNSPECIFIED \/ code = EC_WRONG_SUITE \/ code = EC_UNKNOWN_CRED).
Proof.
  intros w a r w1 l rs w2 v code w3 Hr Hp H Hq Hl He.
  pose proof (reachable_nonneg _ Hr) as Hn.
  destruct (error_of_call a w r w1 Hn Hp H) as [E1 E2].
  pose proof (step_nonneg _ _ _ _ Hn H) as Hn1.
  pose proof (quiet_runs l w1 rs w2 Hn1 Hq Hl) as Q.
  cbn [do_api] in He. unfold bind, getc, ret, error_get_code in He. cbn [negb] in He.
  destruct (c_is_init (w_ctx w2)); cbn [negb] in He; inversion He; subst.
  split; [reflexivity|]. split; [reflexivity|]. rewrite Q. split.
  - split; [|exact E1]. intro X. destruct (Z.eq_dec (fst r) OK) as [?|N]; [assumption|].
    destruct (E2 N) as [_ [Y|[[Y _]|[Y _]]]]; rewrite Y in X; discriminate.
  - intro N. destruct (E2 N) as [_ [Y|[[Y _]|[Y _]]]]; auto.
Qed.
Lemma suites_after_mismatch : forall w a r w1 l rs w2 nn n p o q w3, reachable w ->
  past_guards a w -> do_api a w = Ret r w1 -> quiet l w1 -> runs l w1 = Ret rs w2 ->
  do_api (AErrSuites nn n p) w2 = Ret (OK, OSuites o q) w3 ->
  kind a = Some M1p /\ fst r <> OK /\ w3 = w2.
Proof.
  intros w a r w1 l rs w2 nn n p o q w3 Hr Hp H Hq Hl He.
  pose proof (reachable_nonneg _ Hr) as Hn.
  destruct (error_of_call a w r w1 Hn Hp H) as [E1 E2].
  pose proof (step_nonneg _ _ _ _ Hn H) as Hn1.
  pose proof (quiet_runs l w1 rs w2 Hn1 Hq Hl) as Q.
  cbn [do_api] in He. unfold bind, getc, ret, error_get_cipher_suites in He.
  destruct (negb nn || (n =? 0) || (p =? 0)); [inversion He|].
  destruct (negb (c_is_init (w_ctx w2))); [inversion He|].
  destruct (c_error (w_ctx w2) =? EC_WRONG_SUITE) eqn:W; cbn [negb] in He; [|inversion He].
  apply Z.eqb_eq in W. rewrite Q in W.
  assert (w3 = w2) by (repeat (match type of He with context [if ?b then _ else _] => destruct b end); inversion He; reflexivity).
  destruct (Z.eq_dec (fst r) OK) as [R|N].
  - rewrite (E1 R) in W. discriminate.
  - destruct (E2 N) as [_ [Y|[[Y K]|[Y _]]]]; try (rewrite Y in W; discriminate). auto.
Qed.
Lemma suites_in_buffers : forall nn n p c o q, 0 <= n -> 0 <= p ->
  error_get_cipher_suites nn n p c = (OK, o, q) ->
  exists own peer, o = Some own /\ q = Some peer /\ zlen own <= n /\ zlen peer <= p /\
  own = map (fun i => cs_value (nth i (c_csuites c) csuite0)) (seq 0 (Z.to_nat (c_csuite_len c))) /\
  peer = map (fun i => nth i (c_peer_csuites c) 0) (seq 0 (Z.to_nat (c_peer_csuite_len c))).
Proof.
  intros nn n p c o q Hn Hp H. unfold error_get_cipher_suites in H.
  destruct (negb nn || (n =? 0) || (p =? 0)); [inversion H|].
  destruct (negb (c_is_init c)); [inversion H|].
  destruct (negb (c_error c =? EC_WRONG_SUITE)); [inversion H|].
  destruct (n <? c_csuite_len c) eqn:A; [inversion H|].
  destruct (p <? c_peer_csuite_len c) eqn:B; [inversion H|]. inversion H; subst.
  eexists. eexists. split; [reflexivity|]. split; [reflexivity|].
  unfold zlen. rewrite !map_length, !seq_length. split; [lia|]. split; [lia|]. auto.
Qed.
Lemma call_resources : forall a w r w', reachable w -> do_api a w = Ret r w' ->
  (exists t, w_tr w' = t ++ w_tr w) /\ forall b, live b (w_tr w') = live b (w_tr w).
Proof. intros a w r w' Hr. apply step_live. now apply reachable_nonneg. Qed.
Lemma call_no_bad_free : forall a w, reachable w -> do_api a w <> Ub UbFree.
Proof. intros a w Hr H. apply (step_ub a w UbFree (reachable_nonneg _ Hr) H). reflexivity. Qed.
Lemma call_handles : forall a w r w', reachable w -> do_api a w = Ret r w' ->
  ~ (kind a = Some M1c /\ fst r = E_NO_MEM) ->
  forall h, handles h (w_tr w') = handles h (w_tr w).
Proof.
  intros a w r w' Hr H N. destruct (step_handles a w r w' (reachable_nonneg _ Hr) H); tauto.
Qed.
Lemma failed_call_aborts : forall a w r w', reachable w -> past_guards a w ->
  do_api a w = Ret r w' -> fst r <> OK ->
  c_status (w_ctx w') = SM_ABORTED /\
  (c_error (w_ctx w') = EC_UNSPECIFIED \/ c_error (w_ctx w') = EC_WRONG_SUITE \/
   c_error (w_ctx w') = EC_UNKNOWN_CRED).
Proof.
  intros a w r w' Hr Hp H N.
  destruct (error_of_call a w r w' (reachable_nonneg _ Hr) Hp H) as [_ X].
  destruct (X N) as [A [B|[[B _]|[B _]]]]; auto.
Qed.
Lemma reachable_run : forall l w rs w', reachable w -> runs l w = Ret rs w' -> reachable w'.
Proof.
  intros l w rs w' (c & l0 & rs0 & H) H'. exists c, (l0 ++ l), (rs0 ++ rs).
  revert rs0 H. generalize (Wd c []). induction l0 as [|a l0 IH]; intros v rs0 H; cbn [app].
  - apply runs_nil in H as [-> ->]. exact H'.
  - apply runs_cons in H as (r & w1 & rs1 & H1 & H2 & ->). cbn [runs]. unfold bind.
    rewrite H1, (IH _ _ H2). reflexivity.
Qed.
Lemma reachable_step : forall a w r w', reachable w -> do_api a w = Ret r w' -> reachable w'.
Proof.
  intros a w r w' Hr H. apply (reachable_run [a] w [(a, r)]); [exact Hr|].
  cbn [runs]. unfold bind. rewrite H. reflexivity.
Qed.
Lemma failed_session_dead : forall a w r w1 l rs w', reachable w -> past_guards a w ->
  do_api a w = Ret r w1 -> fst r <> OK -> ~ In AInit l -> runs l w1 = Ret rs w' ->
  Forall (fun r => needs_session (rcall r) -> rval r <> OK) rs.
Proof.
  intros a w r w1 l rs w' Hr Hp H N Ha Hl.
  eapply (dead_session w1); eauto; [eapply reachable_step; eauto|].
  eapply failed_call_aborts; eauto.
Qed.
Lemma failed_oscore_dead : forall a b c d e w r w1 l rs w', reachable w ->
  do_api (AOscore a b c d e) w = Ret r w1 -> fst r <> OK -> w1 <> w -> ~ In AInit l ->
  runs l w1 = Ret rs w' -> Forall (fun r => needs_session (rcall r) -> rval r <> OK) rs.
Proof.
  intros a b c d e w r w1 l rs w' Hr H N W Ha Hl.
  eapply (dead_session w1); eauto; [eapply reachable_step; eauto|].
  eapply oscore_failed; eauto. now apply reachable_nonneg.
Qed.
End Session.
