(** Erasure of the ephemeral key, message 4 and roles, trailing bytes, surplus EAD. *)
From Verif Require Import Monad Api Common Msg1 Msg2 Msg3 Msg4 Exporter History Spec Rfc Wire Uses Conform Received Policy Safety
  Facts Logic Frame Sym Pres CborProofs RfcProofs CodecProofs RoundTrip WireProofs ConfigProofs HistoryProofs SessionProofs SafeProofs SafeHistory
  Agree Honest Fresh Steps2 Steps3 Run1 Run2p Run3 Run4 Sessions Claims2 Claims3 MemProofs.

(** ** C34 *)
Section Erase.
Context {E : env}.
Definition P0 (role m : Z) (c : ctx) : Prop := c_role c = role /\ c_chosen_method c = m.
Definition dead_key (c : ctx) : Prop := no_private_key c /\ c_status c <> SM_START /\ c_status c <> SM_RECEIVED_M1.
Lemma step_P : forall (P : ctx -> Prop) A B (m : M A) (k : A -> M B) w Q, pr P m -> P (w_ctx w) ->
  (forall a w', P (w_ctx w') -> sat Any (k a) w' Q) -> sat Any (bind m k) w Q.
Proof. intros P A B m k w Q Hm H Hk. apply sat_bind. eapply sat_conseq; [apply Hm, H|]. intros a w' X. now apply Hk. Qed.
Ltac md0 := idtac; match goal with H : P0 _ _ _ |- _ => destruct H; split; assumption end.
Ltac mdk := idtac; match goal with H : no_private_key _ |- _ => destruct H; split; first [assumption|reflexivity] end.

Lemma agree_eph_erases : forall p n w, sat Any (agree_eph p n) w (fun _ w' => no_private_key (w_ctx w')).
Proof.
  intros. unfold agree_eph. apply sat_bind. eapply sat_conseq; [apply any_nu|]. intros k w1 _.
  apply sat_bind. eapply sat_conseq; [apply any_nu|]. intros [r kid] w2 _. apply sat_bind, sat_modify.
  assert (H : no_private_key (set_dh_priv [] (set_dh_priv_len 0 (w_ctx w2)))) by (split; reflexivity).
  destruct (negb _); [now apply sat_ret|]. apply (step_P no_private_key); [auto with pr|exact H|]. intros [r1 o] w3 H3.
  apply (step_P no_private_key); [auto with pr|exact H3|]. intros x w4 H4. destruct (_ || _); now apply sat_ret.
Qed.
Lemma prk_static_erases : forall salt gxx next role m w, (forall n, pr (P0 role m) (salt n)) -> P0 role m (w_ctx w) ->
  (forall n w, P0 role m (w_ctx w) -> sat Any (gxx n) w (fun x w' => fst x = OK -> no_private_key (w_ctx w'))) ->
  sat Any (prk_static salt gxx next) w (fun r w' => r = OK -> no_private_key (w_ctx w')).
Proof.
  intros salt gxx next role m w Hs H0 Hg. unfold prk_static.
  apply (step_P (P0 role m)); [auto with pr|exact H0|]. intros s w1 H1.
  apply (step_P (P0 role m)); [auto with pr|exact H1|]. intros ok w2 H2. destruct (negb ok); [apply sat_ret; discriminate|].
  apply (step_P (P0 role m)); [auto with pr|exact H2|]. intros [r sa] w3 H3. destruct (negb _).
  { apply (step_P (P0 role m)); [auto with pr|exact H3|]. intros. apply sat_ret. discriminate. }
  apply (step_P (P0 role m)); [auto with pr|exact H3|]. intros ok1 w4 H4. destruct (negb ok1).
  { apply (step_P (P0 role m)); [auto with pr|exact H4|]. intros. apply sat_ret. discriminate. }
  apply sat_bind. eapply sat_conseq; [apply Hg, H4|]. intros [r1 g] w5 H5. cbn [fst] in H5. destruct (r1 =? OK) eqn:R; cbn [negb].
  - apply Z.eqb_eq in R. specialize (H5 R). 
    match goal with |- sat _ ?m _ _ => assert (X : pr no_private_key m) end.
    { pr_auto mdk. }
    eapply sat_conseq; [apply X, H5|]. auto.
  - eapply sat_conseq with (P := fun r (_ : world) => r <> OK); [|intros; congruence].
    apply sat_bind. eapply sat_conseq; [apply any_nu|]. intros ? ? _. apply sat_bind. eapply sat_conseq; [apply any_nu|].
    intros ? ? _. apply sat_ret. discriminate.
Qed.
Lemma prk_3e2m_erases : forall cr pub m w, responder_static m = true -> P0 INITIATOR m (w_ctx w) ->
  sat Any (comp_prk_3e2m cr pub) w (fun r w' => r = OK -> no_private_key (w_ctx w')).
Proof.
  intros cr pub m w Hm H. unfold comp_prk_3e2m. apply sat_bind, sat_getc. destruct (negb _); [apply sat_ret; discriminate|]. cbv zeta.
  destruct H as [H1 H2] eqn:X. rewrite H2. unfold responder_static in Hm. 
  replace ((m =? 0) || (m =? 2)) with false by lia. rewrite Hm.
  apply (prk_static_erases _ _ _ INITIATOR m); [auto with pr|exact H|].
  intros n w1 [G1 G2]. unfold comp_grx. destruct (n =? 0); [apply sat_ret; discriminate|]. apply sat_bind, sat_getc. rewrite G1.
  cbn [Z.eqb INITIATOR]. eapply sat_conseq; [apply agree_eph_erases|]. auto.
Qed.
Lemma prk_4e3m_erases : forall cr pub m w, initiator_static m = true -> P0 RESPONDER m (w_ctx w) ->
  sat Any (comp_prk_4e3m cr pub) w (fun r w' => r = OK -> no_private_key (w_ctx w')).
Proof.
  intros cr pub m w Hm H. unfold comp_prk_4e3m. apply sat_bind, sat_getc. destruct (negb _); [apply sat_ret; discriminate|]. cbv zeta.
  destruct H as [H1 H2] eqn:X. rewrite H2. unfold initiator_static in Hm. 
  replace ((m =? 0) || (m =? 1)) with false by lia. rewrite Hm.
  apply (prk_static_erases _ _ _ RESPONDER m); [auto with pr|exact H|].
  intros n w1 [G1 G2]. unfold comp_giy. destruct (n =? 0); [apply sat_ret; discriminate|]. apply sat_bind, sat_getc. rewrite G1.
  cbn [Z.eqb INITIATOR RESPONDER]. eapply sat_conseq; [apply agree_eph_erases|]. auto.
Qed.
Definition erased (r : Z) (w' : world) : Prop := r = OK -> no_private_key (w_ctx w').
Lemma rest_erased : forall m w, pr no_private_key m -> no_private_key (w_ctx w) -> sat Any m w erased.
Proof. intros m w H X. eapply sat_conseq; [apply H, X|]. intros a w' Y _. exact Y. Qed.
Lemma failp_erased : forall l r w, r <> OK -> sat Any (failp l r) w erased.
Proof.
  intros. unfold failp. apply sat_bind. eapply sat_conseq; [apply any_nu|]. intros a w' _. apply sat_ret. intro X. congruence.
Qed.
Ltac one role m := match goal with
  | |- sat _ (ret _) _ _ => apply sat_ret; unfold erased; discriminate
  | |- sat _ (failp _ _) _ _ => apply failp_erased; discriminate
  | |- sat _ (if ?b then _ else _) _ _ => destruct b
  | |- sat _ (match ?x with _ => _ end) _ _ => destruct x
  | |- sat _ (bind (comp_prk_3e2m _ _) _) _ _ => fail 1
  | |- sat _ (bind (comp_prk_4e3m _ _) _) _ _ => fail 1
  | |- sat _ (let _ := _ in _) _ _ => cbv zeta
  | |- sat _ (bind getc _) _ _ => apply sat_bind, sat_getc
  | H : P0 role m _ |- sat _ (bind (modify _) (fun _ => failp _ _)) _ _ => apply sat_bind, sat_modify
  | H : P0 role m _ |- sat _ (bind _ _) _ _ =>
      apply (step_P (P0 role m)); [solve [pr_all md0]|exact H|]; clear H; intros ? ? ?
  end.
Lemma m2p_erases : forall nn msg w, responder_static (c_chosen_method (w_ctx w)) = true ->
  sat Any (message_2_process nn msg) w erased.
Proof.
  intros nn msg w Hm. unfold message_2_process. destruct (_ || _); [apply sat_ret; unfold erased; discriminate|].
  apply sat_bind, sat_getc. destruct (negb _); [apply sat_ret; unfold erased; discriminate|]. unfold enter. apply sat_bind, sat_modify.
  set (m := c_chosen_method (w_ctx w)) in *.
  assert (H : P0 INITIATOR m (set_role INITIATOR (set_message MSG_2 (set_error EC_UNSPECIFIED (set_status SM_ABORTED (w_ctx w)))))) by (split; reflexivity).
  repeat one INITIATOR m.
  apply sat_bind. eapply sat_conseq; [eapply prk_3e2m_erases; eassumption|]. intros r w1 X. destruct (r =? OK) eqn:R; cbn [negb].
  - apply Z.eqb_eq in R. apply rest_erased; [|exact (X R)]. pr_all mdk.
  - apply failp_erased. discriminate.
Qed.
Lemma m3p_erases : forall nn msg w, initiator_static (c_chosen_method (w_ctx w)) = true ->
  sat Any (message_3_process nn msg) w erased.
Proof.
  intros nn msg w Hm. unfold message_3_process. destruct (_ || _); [apply sat_ret; unfold erased; discriminate|].
  apply sat_bind, sat_getc. destruct (negb _); [apply sat_ret; unfold erased; discriminate|]. unfold enter. apply sat_bind, sat_modify.
  set (m := c_chosen_method (w_ctx w)) in *.
  assert (H : P0 RESPONDER m (set_role RESPONDER (set_message MSG_3 (set_error EC_UNSPECIFIED (set_status SM_ABORTED (w_ctx w)))))) by (split; reflexivity).
  repeat one RESPONDER m.
  apply sat_bind. eapply sat_conseq; [eapply prk_4e3m_erases; eassumption|]. intros r w1 X. destruct (r =? OK) eqn:R; cbn [negb].
  - apply Z.eqb_eq in R. apply rest_erased; [|exact (X R)]. pr_all mdk.
  - apply failp_erased. discriminate.
Qed.

(** No later call of the session brings a key back. *)
Ltac mdd := idtac; repeat match goal with H : dead_key _ |- _ => let a := fresh in let b := fresh in let c := fresh in destruct H as (a & b & c) end;
  first [ solve [match goal with H : no_private_key ?c |- dead_key _ => destruct H; (split; [split; first [assumption|reflexivity]|]); split; first [assumption|discriminate] end]
        | exfalso; unfold in_state in *; lia ].
Lemma msg_dead : forall a k, kind a = Some k -> pr dead_key (do_api a).
Proof.
  intros a k K. destruct a; try discriminate K; cbn [do_api]; unfold msg_out, no_out; pr_all mdd.
Qed.

Lemma cfg_dead : forall f w r w', cfg f w = Ret r w' -> (forall c r c', f c = (r, c') -> r <> OK -> c' = c) ->
  (forall c c', f c = (OK, c') -> dead_key c -> dead_key c') -> dead_key (w_ctx w) -> dead_key (w_ctx w').
Proof.
  intros f w r w' H F1 F2 D. rewrite cfg_run in H. inversion H; subst. cbn [w_ctx].
  destruct (f (w_ctx w)) as [x c'] eqn:X. cbn [snd]. destruct (Z.eq_dec x OK) as [->|N].
  - exact (F2 _ _ X D).
  - now rewrite (F1 _ _ _ X N).
Qed.
Lemma dead_key_step : forall a w r w', a <> AInit -> a <> ADeinit -> do_api a w = Ret r w' ->
  dead_key (w_ctx w) -> dead_key (w_ctx w').
Proof.
  intros a w r w' A1 A2 H D. destruct (kind a) as [k|] eqn:K; [exact (sat_run _ _ _ _ _ _ _ (msg_dead _ _ K w D) H)|].
  destruct a; try congruence; try discriminate K; cbn [do_api] in H.
  1-8: apply (cfg_dead _ _ _ _ H); [..|exact D]; clear H D;
    [ intros c x c' X N | intros c c' X D ];
    match goal with
    | X : set_methods_call _ _ = _ |- _ => destruct (set_methods_spec _ _ _ _ X) as (A & B & C)
    | X : set_cipher_suites_call _ _ = _ |- _ => destruct (set_cipher_suites_spec _ _ _ _ X) as (A & B & C)
    | X : set_connection_id_call _ _ = _ |- _ => destruct (set_connection_id_spec _ _ _ _ X) as (A & B & C)
    | X : set_user_context_call _ _ = _ |- _ => destruct (set_user_context_spec _ _ _ _ X) as (A & B & C)
    | X : bind_ead_call _ _ = _ |- _ => destruct (bind_ead_spec _ _ _ _ X) as (A & B & C)
    | X : bind_keys_call _ _ = _ |- _ => destruct (bind_keys_spec _ _ _ _ X) as (A & B & C)
    | X : bind_crypto_call _ _ = _ |- _ => destruct (bind_crypto_spec _ _ _ _ X) as (A & B & C)
    | X : bind_credentials_call _ _ = _ |- _ => destruct (bind_credentials_spec _ _ _ _ X) as (A & B & C)
    end; try (now apply B);
    destruct (proj1 A eq_refl) as [Hi Hx];
    try (destruct Hx as (l & Hl & _); specialize (C eq_refl l Hl)); try specialize (C eq_refl);
    repeat match goal with C : _ /\ _ |- _ => destruct C end;
    repeat match goal with C : exists _, _ |- _ => destruct C end; subst; exact D.
  all: match type of H with ?m _ = _ => assert (P : pr dead_key m) by (unfold msg_out, no_out; pr_all mdd) end;
    exact (sat_run _ _ _ _ _ _ _ (P w D) H).
Qed.
Lemma dead_key_runs : forall l w rs w', ~ In AInit l -> ~ In ADeinit l -> runs l w = Ret rs w' ->
  dead_key (w_ctx w) -> dead_key (w_ctx w').
Proof.
  induction l as [|a l IH]; intros w rs w' A1 A2 H D.
  - apply runs_nil in H as [_ ->]. exact D.
  - apply runs_cons in H as (r & w1 & rs1 & H1 & H2 & _). apply (IH w1 rs1).
    + intro X. apply A1. now right.
    + intro X. apply A2. now right.
    + exact H2.
    + apply (dead_key_step _ _ _ _) with (4 := D) (3 := H1); intros ->; [apply A1|apply A2]; now left.
Qed.
Lemma ok_status : forall a k w r w', kind a = Some k -> nonneg w -> do_api a w = Ret (OK, r) w' -> c_status (w_ctx w') = next_of k.
Proof.
  intros a k w r w' K N H. destruct (msg_cases _ _ _ _ _ K N H) as [(_ & [[X _]|[X _]])|(_ & _ & [_ _ _ C] & _)]; [discriminate X..|].
  destruct (C eq_refl) as (c1 & _ & Q). apply kept_fields in Q as (_ & _ & _ & Q & _). rewrite Q. destruct k; reflexivity.
Qed.
Lemma key_erased : forall a k w r w1 l rs w', reachable w ->
  (k = M2p /\ responder_static (c_chosen_method (w_ctx w)) = true \/ k = M3p /\ initiator_static (c_chosen_method (w_ctx w)) = true) ->
  kind a = Some k -> do_api a w = Ret (OK, r) w1 -> ~ In AInit l -> ~ In ADeinit l -> runs l w1 = Ret rs w' ->
  no_private_key (w_ctx w1) /\ no_private_key (w_ctx w').
Proof.
  intros a k w r w1 l rs w' R O K H A1 A2 H2.
  assert (N : no_private_key (w_ctx w1)).
  { destruct O as [[-> O]|[-> O]]; destruct a; try discriminate K; cbn [do_api] in H.
    - exact (sat_run _ _ _ _ _ _ _ (sat_no_out _ _ _ erased (m2p_erases nn msg w O)) H eq_refl).
    - exact (sat_run _ _ _ _ _ _ _ (sat_no_out _ _ _ erased (m3p_erases nn msg w O)) H eq_refl). }
  split; [exact N|]. assert (D : dead_key (w_ctx w1)).
  { split; [exact N|]. rewrite (ok_status _ _ _ _ _ K (reachable_nonneg _ R) H). destruct O as [[-> _]|[-> _]]; split; discriminate. }
  exact (proj1 (dead_key_runs _ _ _ _ A1 A2 H2 D)).
Qed.
End Erase.

(** ** C35 *)
Section Role4.
Context {E : env}.
Definition is_m4 (a : api) : Prop := kind a = Some M4c \/ kind a = Some M4p.
Lemma runs_split : forall r1 x r2 l w w', runs l w = Ret (r1 ++ x :: r2) w' ->
  exists l1 l2 w1 w2, l = l1 ++ rcall x :: l2 /\ runs l1 w = Ret r1 w1 /\ do_api (rcall x) w1 = Ret (snd x) w2 /\ runs l2 w2 = Ret r2 w'.
Proof.
  induction r1 as [|y r1 IH]; intros x r2 l w w' H.
  - destruct l as [|a l]; [apply runs_nil in H as [X _]; discriminate X|].
    apply runs_cons in H as (r & w1 & rs & H1 & H2 & X). cbn [app] in X. injection X as -> ->.
    exists [], l, w, w1. auto.
  - destruct l as [|a l]; [apply runs_nil in H as [X _]; discriminate X|].
    apply runs_cons in H as (r & w1 & rs & H1 & H2 & X). cbn [app] in X. injection X as -> <-.
    destruct (IH _ _ _ _ _ H2) as (l1 & l2 & w2 & w3 & -> & Q1 & Q2 & Q3).
    exists (a :: l1), l2, w2, w3. split; [reflexivity|]. split; [|auto]. cbn [runs]. unfold bind. rewrite H1, Q1. reflexivity.
Qed.
Definition past_4 (c : ctx) : Prop := dead c \/ c_status c = SM_PERSISTED.
Lemma past_4_step : forall a w r w', a <> AInit -> nonneg w -> past_4 (w_ctx w) -> do_api a w = Ret r w' ->
  past_4 (w_ctx w') /\ (is_m4 a -> fst r <> OK).
Proof.
  intros a w r w' A N P H. destruct P as [P|P].
  { destruct (dead_step _ _ _ _ A N P H) as (D & R & _). split; [now left|]. intros [K|K]; apply R; congruence. }
  destruct (kind a) as [k|] eqn:K.
  - assert (X : ~ permitted k (w_ctx w)) by (unfold permitted; rewrite P; destruct k; discriminate).
    destruct (msg_cases _ _ _ _ _ K N H) as [(-> & [[Y _]|[Y _]])|(_ & Y & _)]; [..|contradiction];
      (split; [now right|]; rewrite Y; discriminate).
  - split; [|intros [Y|Y]; congruence].
    assert (Q : a = ADeinit \/ a <> ADeinit) by (destruct a; auto; right; discriminate). destruct Q as [->|Q].
    + destruct (deinit_run _ _ _ H) as [(_ & _ & ->)|(_ & _ & ->)]; [left; right; repeat split|now right].
    + pose proof (sat_run _ _ _ _ _ _ _ (other_post _ _ K A Q N) H) as [_ O].
      destruct (ot_status _ _ _ _ O) as [S|(_ & S & _)]; [right; congruence|left; left; exact S].
Qed.
Lemma past_4_runs : forall l w rs w', ~ In AInit l -> nonneg w -> past_4 (w_ctx w) -> runs l w = Ret rs w' ->
  Forall (fun y => is_m4 (rcall y) -> rval y <> OK) rs.
Proof.
  induction l as [|a l IH]; intros w rs w' A N P H.
  - apply runs_nil in H as [-> _]. constructor.
  - apply runs_cons in H as (r & w1 & rs' & H1 & H2 & ->).
    destruct (past_4_step a w r w1) as [P1 R]; auto; [intros ->; apply A; now left|].
    constructor; [exact R|]. apply (IH w1 rs' w'); auto; [intro X; apply A; now right|eapply step_nonneg; eauto].
Qed.
Lemma once_4 : forall w0 l rs w' r1 x r2, reachable w0 -> ~ In AInit l -> runs (AInit :: l) w0 = Ret rs w' ->
  rs = r1 ++ x :: r2 -> is_m4 (rcall x) -> rval x = OK ->
  full_handshake (succeeded r1) /\ Forall (fun y => is_m4 (rcall y) -> rval y <> OK) r2.
Proof.
  intros w0 l rs w' r1 x r2 R A H -> K V. pose proof H as H0.
  destruct r1 as [|y r1].
  { apply runs_cons in H as (r & w1 & rs & H1 & H2 & X). cbn [app] in X. injection X as -> ->. destruct K; discriminate. }
  apply runs_split in H as (l1 & l2 & w1 & w2 & L & H1 & H2 & H3).
  destruct l1 as [|b l1]; [apply runs_nil in H1 as [X _]; discriminate X|]. cbn [app] in L. injection L as <- ->.
  assert (N1 : nonneg w1) by (eapply runs_nonneg; [exact (reachable_nonneg _ R)|exact H1]).
  assert (A1 : ~ In AInit l1) by (intro X; apply A, in_or_app; now left).
  assert (A2 : ~ In AInit l2) by (intro X; apply A, in_or_app; right; now right).
  destruct x as [a [v o]]. unfold rval in V. cbn [rcall fst snd] in *. subst v.
  assert (Z : exists k, kind a = Some k /\ (k = M4c \/ k = M4p)) by (destruct K as [K|K]; eauto). destruct Z as (k & Hk & Z).
  split.
  - apply (complete_handshake w0 l1 (y :: r1) w1 R A1 H1). left.
    destruct (msg_cases _ _ _ _ _ Hk N1 H2) as [(_ & [[X _]|[X _]])|(_ & P & _)]; [discriminate X..|].
    unfold permitted in P. destruct Z as [-> | ->]; cbn in P; now injection P.
  - apply (past_4_runs l2 w2 r2 w'); auto; [eapply step_nonneg; eauto|]. right.
    rewrite (ok_status _ _ _ _ _ Hk N1 H2). now destruct Z as [-> | ->].
Qed.
End Role4.

(** ** C42 *)
Section Tail.
Context {E : env}.
Lemma one_bstr_tail : forall b x, zlen b < 2 ^ 64 -> dec_one_bstr cf_canon (cbor (Bstr b) ++ x) = Some b.
Proof. intros b x H. unfold dec_one_bstr. rewrite bstr_dec by (assumption || lia). reflexivity. Qed.
Lemma bstr_nonempty : forall b x, zlen (cbor (Bstr b) ++ x) =? 0 = false.
Proof.
  intros b x. rewrite <- enc_bstr_rfc. unfold enc_bstr. apply Z.eqb_neq. rewrite !zlen_app.
  assert (0 < zlen (enc_head 2 (zlen b))).
  { unfold enc_head. repeat match goal with |- context [if ?c then _ else _] => destruct c end; rewrite zlen_cons;
      match goal with |- context [1 + zlen ?l] => pose proof (zlen_nonneg _ l) | |- context [zlen ?l + 1] => pose proof (zlen_nonneg _ l) end; lia. }
  pose proof (zlen_nonneg _ b). pose proof (zlen_nonneg _ x). lia.
Qed.
Lemma m3_cong : forall nn m m', zlen m =? 0 = false -> zlen m' =? 0 = false -> dec_one_bstr cf_canon m = dec_one_bstr cf_canon m' ->
  message_3_process nn m = message_3_process nn m'.
Proof. intros nn m m' H1 H2 H3. unfold message_3_process. now rewrite H1, H2, H3. Qed.
Lemma m4_cong : forall nn m m', zlen m =? 0 = false -> zlen m' =? 0 = false -> dec_one_bstr cf_canon m = dec_one_bstr cf_canon m' ->
  message_4_process nn m = message_4_process nn m'.
Proof. intros nn m m' H1 H2 H3. unfold message_4_process. now rewrite H1, H2, H3. Qed.
Lemma bstr_alone : forall b, cbor (Bstr b) = cbor (Bstr b) ++ [].
Proof. intro. now rewrite app_nil_r. Qed.
Lemma tail_3 : forall b x w, zlen b < 2 ^ 64 ->
  do_api (AM3Process true (cbor (Bstr b) ++ x)) w = do_api (AM3Process true (cbor (Bstr b))) w.
Proof.
  intros b x w H. cbn [do_api]. rewrite (m3_cong true (cbor (Bstr b) ++ x) (cbor (Bstr b))); [reflexivity|apply bstr_nonempty|..];
    rewrite (bstr_alone b) at 1; [apply bstr_nonempty|]. rewrite <- bstr_alone, one_bstr_tail by exact H. 
  rewrite bstr_alone. now rewrite one_bstr_tail.
Qed.
Lemma tail_4 : forall b x w, zlen b < 2 ^ 64 ->
  do_api (AM4Process true (cbor (Bstr b) ++ x)) w = do_api (AM4Process true (cbor (Bstr b))) w.
Proof.
  intros b x w H. cbn [do_api]. rewrite (m4_cong true (cbor (Bstr b) ++ x) (cbor (Bstr b))); [reflexivity|apply bstr_nonempty|..];
    rewrite (bstr_alone b) at 1; [apply bstr_nonempty|]. rewrite <- bstr_alone, one_bstr_tail by exact H. 
  rewrite bstr_alone. now rewrite one_bstr_tail.
Qed.
Lemma dec2_tail : forall b x, zlen b < 2 ^ 64 -> dec_message_2 (cbor (Bstr b) ++ x) = Some (ZS (zlen b) (Some (b ++ x))).
Proof. intros b x H. unfold dec_message_2. rewrite str_p_dec by (assumption || lia). reflexivity. Qed.
Lemma rd_tail : forall n b x, 0 <= n <= zlen b -> rd_ptr n (Some (b ++ x)) = rd_ptr n (Some b).
Proof.
  intros n b x H. unfold rd_ptr. destruct (n <=? 0) eqn:N; [reflexivity|]. rewrite zlen_app. pose proof (zlen_nonneg _ x).
  replace (n <=? zlen b + zlen x) with true by lia. replace (n <=? zlen b) with true by lia.
  unfold take. rewrite firstn_app. replace (Z.to_nat n - length b)%nat with 0%nat by (unfold zlen in *; lia).
  cbn [firstn]. now rewrite app_nil_r.
Qed.
Lemma suite_run : forall w s w', get_suite w = Ret s w' -> s = the_suite (w_ctx w) /\ w' = w.
Proof.
  intros w s w' H. apply (sat_run _ _ _ _ _ _ _ (sy_get_suite w (fun s w' => s = the_suite (w_ctx w) /\ w' = w) (fun _ => conj eq_refl eq_refl)) H).
Qed.
Lemma bind_ext : forall A B (m : M A) (k k' : A -> M B) w, (forall a w', m w = Ret a w' -> k a w' = k' a w') -> bind m k w = bind m k' w.
Proof. intros A B m k k' w H. unfold bind. destruct (m w) as [a w'|u] eqn:X; [now apply H|reflexivity]. Qed.
Lemma bind_at : forall A B (m m' : M A) (k : A -> M B) w, m w = m' w -> bind m k w = bind m' k w.
Proof. intros A B m m' k w H. unfold bind. now rewrite H. Qed.
Lemma drop_app : forall n (b x : bytes), 0 <= n <= zlen b -> drop n (b ++ x) = drop n b ++ x.
Proof.
  intros n b x H. unfold drop. rewrite skipn_app. replace (Z.to_nat n - length b)%nat with 0%nat by (unfold zlen in *; lia). reflexivity.
Qed.
Lemma ct2_len_tail : forall b x w, zlen b < 2 ^ 64 -> comp_ciphertext_2_len (cbor (Bstr b) ++ x) w = comp_ciphertext_2_len (cbor (Bstr b) ++ []) w.
Proof. intros b x w H. unfold comp_ciphertext_2_len. rewrite !dec2_tail by exact H. reflexivity. Qed.
Lemma ct2_len_run : forall b w y w', zlen b < 2 ^ 64 -> comp_ciphertext_2_len (cbor (Bstr b) ++ []) w = Ret y w' ->
  w' = w /\ y = (OK, size_sub (zlen b) (cs_ecc (the_suite (w_ctx w)))).
Proof.
  intros b w y w' H R. unfold comp_ciphertext_2_len in R. rewrite dec2_tail in R by exact H. apply bind_inv in R as (s & w1 & R1 & R2).
  apply suite_run in R1 as [-> ->]. inversion R2; subst. split; reflexivity.
Qed.
Lemma parse2_tail : forall b x w, zlen b < 2 ^ 64 -> let e := cs_ecc (the_suite (w_ctx w)) in 0 <= e <= zlen b ->
  parse_msg_2 (cbor (Bstr b) ++ x) (size_sub (zlen b) e) w = parse_msg_2 (cbor (Bstr b) ++ []) (size_sub (zlen b) e) w.
Proof.
  intros b x w H e He. unfold parse_msg_2. rewrite !dec2_tail by exact H. pose proof (zlen_nonneg _ b).
  assert (S : size_sub (zlen b) e = zlen b - e) by (unfold size_sub; apply Z.mod_small; lia). rewrite S.
  apply bind_ext. intros s w1 R. apply suite_run in R as [-> ->]. fold e. apply bind_ext. intros u w1 _. cbn [zs_ptr].
  rewrite !rd_tail by exact He. apply bind_ext. intros g w2 _. apply bind_ext. intros u2 w3 _.
  rewrite !drop_app by exact He. rewrite !rd_tail; [reflexivity|..]; rewrite zlen_drop by lia; lia.
Qed.
Lemma tail_2 : forall b x w, zlen b < 2 ^ 64 -> 0 <= cs_ecc (the_suite (w_ctx w)) <= zlen b ->
  do_api (AM2Process true (cbor (Bstr b) ++ x)) w = do_api (AM2Process true (cbor (Bstr b))) w.
Proof.
  intros b x w H He. rewrite (bstr_alone b) at 2. cbn [do_api]. apply bind_at. unfold message_2_process. rewrite !bstr_nonempty.
  cbn [negb orb]. apply bind_ext. intros c w1 R1. inversion R1; subst c w1. destruct (negb _); [reflexivity|].
  apply bind_ext. intros u w1 R1'. unfold enter, modify in R1'. inversion R1'; subst w1 u. clear R1'.
  etransitivity; [apply bind_at, ct2_len_tail, H|]. apply bind_ext. intros y w1 R2.
  apply ct2_len_run in R2 as [-> ->]; [|exact H]. cbv beta iota. change (OK =? OK) with true. cbn [negb].
  apply bind_ext. intros ok w1 R3. destruct (negb ok); [reflexivity|]. apply bind_at.
  assert (W : the_suite (w_ctx w1) = the_suite (w_ctx w)).
  { match type of R3 with alloc ?a ?b ?v = _ => assert (Y : sat Any (alloc a b) v (fun _ w' => the_suite (w_ctx w') = the_suite (w_ctx w))) by (apply sy_alloc; intro; reflexivity) end.
    exact (sat_run _ _ _ _ _ _ _ Y R3). }
  cbn [w_ctx]. change (the_suite (set_role _ _)) with (the_suite (w_ctx w)). rewrite <- W in *. now apply parse2_tail.
Qed.
Lemma accepted_bstr : forall a k msg w r w', kind a = Some k ->
  match a with AM2Process _ m | AM3Process _ m | AM4Process _ m => m = msg | _ => False end ->
  wf_bytes msg -> do_api a w = Ret (OK, r) w' -> exists b, carries msg [Bstr b].
Proof.
  intros a k msg w r w' K M W H.
  assert (Z : dec_one_bstr cf_canon msg <> None).
  { destruct a; try contradiction; subst msg0; cbn [do_api] in H; 
      refine (sat_run _ _ _ _ _ _ _ (sat_no_out Any _ _ (fun r _ => r = OK -> dec_one_bstr cf_canon msg <> None) _) H eq_refl).
    - unfold message_2_process. destruct (_ || _); [apply sat_ret; discriminate|]. apply sat_bind, sat_getc.
      destruct (negb _); [apply sat_ret; discriminate|]. apply sat_bind, sat_modify.
      destruct (dec_one_bstr cf_canon msg) as [b|] eqn:D; [eapply sat_conseq; [apply any_nu|]; intros; discriminate|].
      assert (D2 : dec_message_2 msg = None).
      { unfold dec_one_bstr, dec_bstr, dec_str in D. unfold dec_message_2. destruct (dec_str_p cf_canon 2 zstr0 (DS 1 msg)) as [[ok z] s'] eqn:P.
        destruct ok; [|reflexivity]. destruct (str_p_sound _ _ _ _ _ _ P W) as (h & q & P1 & _). destruct z as [n [p|]]; cbn [zs_ptr] in P1; discriminate. }
      unfold comp_ciphertext_2_len. rewrite D2. apply sat_bind, sat_ret. cbv beta iota. apply sat_ret. discriminate.
    - unfold message_3_process. destruct (_ || _); [apply sat_ret; discriminate|]. apply sat_bind, sat_getc.
      destruct (negb _); [apply sat_ret; discriminate|]. apply sat_bind, sat_modify. apply sat_bind. eapply sat_conseq; [apply any_nu|]. intros s w1 _.
      destruct (dec_one_bstr cf_canon msg) as [b|]; [eapply sat_conseq; [apply any_nu|]; intros; discriminate|]. apply sat_ret. discriminate.
    - unfold message_4_process. destruct (_ || _); [apply sat_ret; discriminate|]. apply sat_bind, sat_getc.
      destruct (negb _); [apply sat_ret; discriminate|]. apply sat_bind, sat_modify. apply sat_bind. eapply sat_conseq; [apply any_nu|]. intros s w1 _.
      destruct (dec_one_bstr cf_canon msg) as [b|]; [eapply sat_conseq; [apply any_nu|]; intros; discriminate|]. apply sat_ret. discriminate. }
  destruct (dec_one_bstr cf_canon msg) as [b|] eqn:D; [|contradiction]. exists b. now apply dec_carries.
Qed.
End Tail.

(** ** C30 *)
Section Ead.
Context {E : env}.
Lemma step_any : forall A B (m : M A) (k : A -> M B) w Q, (forall a w', sat Any (k a) w' Q) -> sat Any (bind m k) w Q.
Proof. intros A B m k w Q H. apply sat_bind. eapply sat_conseq; [apply any_nu|]. intros a w' _. apply H. Qed.
Lemma ead_limit : forall nn msg w, let d := snd (fst (dec_message_1 cf_canon msg)) in
  sat Any (message_1_process nn msg) w (fun r _ => r = OK -> f_process (c_ead (w_ctx w)) <> None ->
    m1_ead_present d = true -> zlen (m1_ead d) <= cf_max_ead).
Proof.
  intros nn msg w. unfold message_1_process. destruct (_ || _); [apply sat_ret; discriminate|]. apply sat_bind, sat_getc.
  destruct (negb _); [apply sat_ret; discriminate|]. apply step_any. intros _ w1.
  destruct (dec_message_1 cf_canon msg) as [[dok d] rest]. cbn [fst snd]. cbv zeta.
  destruct (_ && _); [apply sat_ret; discriminate|]. destruct (_ =? 0); [apply sat_ret; discriminate|].
  apply step_any. intros _ w2. apply step_any. intros s w3. destruct (negb _); [apply sat_ret; discriminate|].
  apply step_any. intros _ w4. apply step_any. intros r w5. destruct (r =? OK) eqn:R1; cbn [negb]; [|apply sat_ret; intros ->; discriminate].
  destruct (negb _); [apply sat_ret; discriminate|]. apply step_any. intros _ w6. apply step_any. intros gx w7. apply step_any. intros _ w8.
  apply step_any. intros r2 w9. destruct (r2 =? OK) eqn:R2; cbn [negb]; [|apply sat_ret; intros ->; discriminate].
  destruct (m1_ead_present d); [|eapply sat_conseq; [apply any_nu|]; intros; discriminate].
  destruct (f_process (c_ead (w_ctx w))) as [f|]; [|eapply sat_conseq; [apply any_nu|]; intros; contradiction].
  destruct (cf_max_ead <? zlen (m1_ead d)) eqn:L.
  - apply sat_bind, sat_ret. change (E_TOO_SMALL =? OK) with false. cbn [negb]. apply sat_ret. discriminate.
  - eapply sat_conseq; [apply any_nu|]. intros; lia.
Qed.
Lemma all_eads_1 : forall nn c t method suites gx ci l y w' e, 0 <= cs_ecc (my_suite c) ->
  int32 method -> 1 <= zlen suites <= 3 -> Forall int32 suites -> zlen gx < 2 ^ 64 -> cid_within (2 ^ 64 - 1) ci ->
  Forall ead_ok l -> zlen l <= 3 -> f_process (c_ead c) <> None ->
  message_1_process nn (cbor_seq (message_1_items method suites gx ci l)) (Wd c t) = Ret y w' -> w_tr w' = e ++ t ->
  (y = OK -> received MSG_1 e = l) /\ (0 <= cf_max_ead < zlen l -> y <> OK).
Proof.
  intros nn c t method suites gx ci l y w' e HE Hm H1 H2 HG HC HL HL3 FP H T.
  assert (CO : cid_ok ci) by (destruct ci; cbn [cid_ok cid_within] in *; [exact HC|lia]).
  destruct (message_1_rt cf_canon method suites gx ci l Hm H1 H2 HG CO HL HL3) as (d & D & _ & _ & _ & _ & _ & D7 & _ & D9).
  set (msg := cbor_seq _) in *. destruct w' as [c' t']. cbn [w_tr] in T. subst t'.
  split.
  - intros ->. pose proof (once_call Quiet.KProcess _ _ _ _ _ _ _ (@Quiet.m1_process_u E Quiet.KProcess nn msg) H) as OV.
    destruct (call_process_1 _ _ _ _ _ _ H HE) as (f' & F1 & B & _). apply app_inv_tail in F1. subst f'. rewrite D in B. cbn [fst snd] in B.
    destruct B as (_ & _ & _ & _ & _ & _ & _ & _ & _ & B10 & _ & _ & B13).
    rewrite (received_all _ _ (m1_ead d) OV); [exact D7|..].
    + intros m' l' r I. now destruct (B13 _ _ _ I) as (_ & -> & ->).
    + intros NE. apply B10; [|exact FP]. apply D9. intros ->. apply NE. now destruct (m1_ead d).
  - intros L ->. pose proof (sat_run _ _ _ _ _ _ _ (ead_limit nn msg (Wd c t)) H eq_refl FP) as Q. rewrite D in Q. cbn [fst snd] in Q.
    assert (X : zlen (m1_ead d) = zlen l) by (rewrite <- D7; unfold zlen; now rewrite map_length).
    rewrite X in Q. cbv zeta in Q. destruct l as [|x l].
    + cbn in L. lia.
    + specialize (Q (proj2 D9 ltac:(discriminate))). lia.
Qed.
Lemma all_eads_4 : forall nn c t msg c' e, sizes_ok (the_suite c) -> wf_bytes msg ->
  message_4_process nn msg (Wd c t) = Ret OK (Wd c' (e ++ t)) ->
  exists key iv ct p, carries msg [Bstr ct] /\ decrypted e key iv (aad (th_of c)) ct p /\
    (f_process (c_ead c) <> None -> cf_max_ead <> 0 -> forall l, Forall ead_ok l -> zlen l <= 3 -> p = cbor_seq (flat_map ead_items l) -> received MSG_4 e = l).
Proof.
  intros nn c t msg c' e SZ W H.
  pose proof (once_call Quiet.KProcess _ _ _ _ _ _ _ (@Quiet.m4_process_u E Quiet.KProcess nn msg) H) as OV.
  pose proof (sat_run _ _ _ _ _ _ _ (run_process_4 nn msg c t (sizes_lens _ SZ)) H eq_refl) as R.
  destruct R as (f' & key & iv & ct & p & F1 & _ & F3 & F4 & _ & [G1 G2] & _). cbn [w_tr] in F1. apply app_inv_tail in F1. subst f'.
  exists key, iv, ct, p. split; [now apply dec_carries|]. split; [exact F4|]. intros FP ME l L1 L2 ->.
  rewrite <- (plaintext_4_rt cf_canon l L1 L2). apply received_all; [exact OV|exact G2|]. intros NE. now apply G1.
Qed.
End Ead.

(** ** C11, C12, C13: corollaries *)
Lemma short_all : forall n msg, zlen msg <=? n = true -> short_of n msg.
Proof.
  intros n msg H b (w & rest & -> & W). inversion W as [|i l a c WI WS]; subst. inversion WS; subst. inversion WI as [|? h (x & r & -> & _)| | |]; subst.
  rewrite !zlen_app, zlen_cons, zlen_nil in H. pose proof (zlen_nonneg _ r). pose proof (zlen_nonneg _ rest). lia.
Qed.
Section Corollaries.
Context {E : env} (HL : limits) (HA : abides).
Lemma compose_faults : forall w a u, careful_world w ->
  fit_call a (w_ctx w) -> match kind a with Some M1c | Some M2c | Some M3c | Some M4c => True | _ => False end ->
  do_api a w = Ub u -> u = UbVla /\ cf_stack <> None \/ u = UbMsg3Write /\ kind a = Some M3c.
Proof.
  intros w a u C F K H. pose proof (careful_call HL HA w a u C F H) as M.
  destruct a; try contradiction K; destruct u; cbn [may] in M; try contradiction M; first [left; split; [reflexivity|apply M]|right; split; reflexivity].
Qed.
Lemma heap_safe : cf_stack = None -> forall w a, careful_world w -> fit_call a (w_ctx w) ->
  match a with
  | AM1Process _ msg => opens_message_1 msg
  | AM2Process _ _ | AM3Process _ _ | AM3Compose _ _ => False
  | _ => True
  end -> exists r w', do_api a w = Ret r w'.
Proof.
  intros S w a C F K. destruct (do_api a w) as [r w'|u] eqn:H; [eauto|]. exfalso. pose proof (careful_call HL HA w a u C F H) as M.
  destruct a; try contradiction K; destruct u; cbn [may] in M; try contradiction M; try (apply M; exact S); tauto.
Qed.
End Corollaries.

Section Corollaries42.
Context {E : env}.
Lemma tail_all : forall b x w, zlen b < 2 ^ 64 ->
  (0 <= cs_ecc (the_suite (w_ctx w)) <= zlen b ->
   do_api (AM2Process true (cbor (Bstr b) ++ x)) w = do_api (AM2Process true (cbor (Bstr b))) w) /\
  do_api (AM3Process true (cbor (Bstr b) ++ x)) w = do_api (AM3Process true (cbor (Bstr b))) w /\
  do_api (AM4Process true (cbor (Bstr b) ++ x)) w = do_api (AM4Process true (cbor (Bstr b))) w.
Proof. intros b x w H. split; [intro; now apply tail_2|]. split; [now apply tail_3|now apply tail_4]. Qed.
Lemma accepted_one : forall a msg w r w',
  a = AM2Process true msg \/ a = AM3Process true msg \/ a = AM4Process true msg ->
  wf_bytes msg -> do_api a w = Ret (OK, r) w' -> exists b, carries msg [Bstr b].
Proof.
  intros a msg w r w' [->|[->| ->]] W H; eapply accepted_bstr; try eassumption; reflexivity.
Qed.
End Corollaries42.
