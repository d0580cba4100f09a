(** Whole handshakes and later histories of parties over a ready-made suite.
    No code of /repo is modelled here. *)
From Verif Require Import Bytes Facts Values Monad Api Common Msg1 Msg2 Msg3 Msg4 Exporter History Spec Rfc Uses Conform
  Logic Sym HistoryProofs RfcProofs Steps Steps2 Steps3 Run1 Run2 Run2p Run3 Run4 Sessions Agree Live Peers Claims.
From Verif Require Import Psa SuiteX SuiteW SuiteCalls SuiteSpec SuiteClaims Linked AskProofs LinkedProofs.

Lemma asks_app {E : env} : forall t0 s e2 e1, asks t0 s e1 -> asks (e1 ++ t0) s e2 -> asks t0 s (e2 ++ e1).
Proof.
  intros t0 s e2 e1 H1. induction e2 as [|ev e2 IH]; [auto|]. intros [A1 A2]. cbn [app asks]. split; [|auto].
  assert (HA : forall k, hand k e2 -> hand k (e2 ++ e1)).
  { intros k (kt & key & I). exists kt, key. apply in_or_app. now left. }
  assert (LE : forall k, lent k e2 -> lent k (e2 ++ e1)).
  { intros k (cr & I & X). exists cr. split; [apply in_or_app; now left|exact X]. }
  destruct ev; cbn [asked] in *; rewrite ?(app_assoc e2 e1 t0) in A1; intuition auto.
Qed.

Section Party.
Context {E : env}.
Lemma suite_sizes : forall S, shipped S -> sizes_ok (table S).
Proof. intros S SH. destruct (shipped_cases _ SH) as [-> | [-> | [-> | ->]]]; cbv; intuition discriminate. Qed.
Lemma on_result : forall A (m : M A) c t x w' s, (forall ro, ak t s ro [] [] m) -> m (Wd c t) = Ret x w' -> the_suite c = s ->
  the_suite (w_ctx w') = s /\ exists e, w_tr w' = e ++ t /\ asks t s e.
Proof.
  intros A m c t x w' s K R Hs. destruct (K (c_role c) [] (Wd c t) x w') as (e & T & A' & S & _).
  - split; [reflexivity|]. split; [exact I|]. now split.
  - split; intros k [].
  - exact R.
  - rewrite app_nil_r in *. split; [exact S|]. exists e. now split.
Qed.
(** One later call. *)
Lemma step_asks : forall a c t r w' s, session_call a = true -> over c -> the_suite c = s -> do_api a (Wd c t) = Ret r w' ->
  over (w_ctx w') /\ the_suite (w_ctx w') = s /\ exists e, w_tr w' = e ++ t /\ asks t s e.
Proof.
  intros a c t r w' s Hc O Hs R.
  assert (Q : forall k, kind a = Some k -> k <> M4c -> k <> M4p -> over (w_ctx w') /\ the_suite (w_ctx w') = s /\ exists e, w_tr w' = e ++ t /\ asks t s e).
  { intros k Hk N1 N2. pose proof (over_not k _ O N1 N2) as NP.
    assert (w' = Wd c t) as ->.
    { destruct (args_dec a) as [Ha|Ha].
      - destruct (guard_state a k (Wd c t) Hk Ha NP) as [o X]. rewrite X in R. now injection R.
      - destruct (guard_args a k (Wd c t) Hk Ha) as [o X]. rewrite X in R. now injection R. }
    split; [exact O|]. split; [exact Hs|]. exists []. now split. }
  destruct a; try discriminate Hc; try (eapply Q; [reflexivity|discriminate|discriminate]); clear Q.

  Ltac cfg_case R O Hs := cbn [do_api] in R; rewrite cfg_run in R; injection R as <- <-; cbn [w_ctx w_tr];
    unfold set_methods_call, set_user_context_call, bind_ead_call, bind_keys_call, bind_crypto_call, bind_credentials_call;
    repeat match goal with
    | |- context [match ?x with _ => _ end] => match x with context [match _ with _ => _ end] => fail 1 | _ => destruct x end
    | |- over _ /\ _ => split; [exact O|split; [exact Hs|exists []; now split]]
    end.
  Ltac kept_core K X := let Z := fresh in assert (Z : core (w_ctx K) = core (w_ctx (Wd _ _))) by exact X; unfold core in Z; cbn [w_ctx] in Z.
  - cfg_case R O Hs.
  - cfg_case R O Hs.
  - cfg_case R O Hs.
  - cfg_case R O Hs.
  - cfg_case R O Hs.
  - cfg_case R O Hs.
  - cbn [do_api] in R. unfold msg_out in R. apply bind_inv in R as ([x y] & w1 & R1 & R). injection R as <- <-.
    split; [exact (sat_run _ _ _ _ _ _ _ (compose_4_dn nn size (Wd c t) O) R1)|].
    destruct (sat_run _ _ _ _ _ _ _ (compose_4_kp nn size (Wd c t)) R1) as [_ K]. unfold core in K. cbn [w_ctx] in K.
    split; [|exact (message_4_compose_k t s RESPONDER nn size c eq_refl Hs _ _ R1)].
    injection K as _ _ _ _ _ _ K1 K2 _ _. unfold the_suite, csuite_at in *. congruence.
  - cbn [do_api] in R. unfold no_out in R. apply bind_inv in R as (x & w1 & R1 & R). injection R as <- <-.
    split; [exact (sat_run _ _ _ _ _ _ _ (process_4_dn nn msg (Wd c t) O) R1)|].
    destruct (sat_run _ _ _ _ _ _ _ (process_4_kp nn msg (Wd c t)) R1) as [_ K]. unfold core in K. cbn [w_ctx] in K.
    split; [|exact (message_4_process_k t s INITIATOR nn msg c eq_refl Hs _ _ R1)].
    injection K as _ _ _ _ _ _ K1 K2 _ _. unfold the_suite, csuite_at in *. congruence.
  - cbn [do_api] in R. unfold msg_out in R. apply bind_inv in R as ([x y] & w1 & R1 & R). injection R as <- <-.
    split; [exact (sat_run _ _ _ _ _ _ _ (export_dn nn label n (Wd c t) O) R1)|].
    eapply on_result; [|exact R1|exact Hs]. intros ro; apply export_prk_exporter_k.
  - cbn [do_api] in R. unfold no_out in R. apply bind_inv in R as (x & w1 & R1 & R). injection R as <- <-.
    split; [exact (sat_run _ _ _ _ _ _ _ (key_update_dn nn entropy (Wd c t) O) R1)|].
    eapply on_result; [|exact R1|exact Hs]. intros ro; apply export_key_update_k.
  - cbn [do_api] in R. apply bind_inv in R as ([x y] & w1 & R1 & R). injection R as <- <-.
    split; [exact (sat_run _ _ _ _ _ _ _ (oscore_dn nn n_sec n_salt n_sid n_rid (Wd c t) O) R1)|].
    eapply on_result; [|exact R1|exact Hs]. intros ro; apply export_oscore_session_k.
  - cbn [do_api] in R. unfold bind, getc in R. destruct (error_get_code nn (w_ctx _)) as [x y]. injection R as <- <-.
    split; [exact O|]. split; [exact Hs|]. exists []. now split.
  - cbn [do_api] in R. unfold bind, getc in R. destruct (error_get_cipher_suites nn size peer_size (w_ctx _)) as [[x y] z]. injection R as <- <-.
    split; [exact O|]. split; [exact Hs|]. exists []. now split.
Qed.
Lemma runs_asks : forall l c t rs w' s, Forall (fun a => session_call a = true) l -> over c -> the_suite c = s ->
  runs l (Wd c t) = Ret rs w' -> exists e, w_tr w' = e ++ t /\ asks t s e.
Proof.
  induction l as [|a l IH]; intros c t rs w' s Hl O Hs R.
  - apply runs_nil in R as [_ ->]. exists []. now split.
  - inversion Hl as [|? ? Ha Hl']; subst. apply runs_cons in R as (r & [c1 t1] & rs' & R1 & R2 & ->).
    destruct (step_asks _ _ _ _ _ _ Ha O eq_refl R1) as (O1 & S1 & e1 & T1 & A1). cbn [w_ctx w_tr] in *. subst t1.
    destruct (IH _ _ _ _ _ Hl' O1 S1 R2) as (e2 & T2 & A2). exists (e2 ++ e1). split; [now rewrite T2, app_assoc|]. now apply asks_app.
Qed.

(** The handshake. *)
Lemma initiator_asks : forall a m1 m2 m3 S, shipped S -> my_suite (s0 a) = table S -> is_message m2 -> initiator_run a m1 m2 m3 ->
  initiator a m1 m2 m3 /\ the_suite (s3 a) = table S /\
  asks [] (table S) (ev1 a) /\ asks (ev1 a) (table S) (ev2 a) /\ asks (ev2 a ++ ev1 a) (table S) (ev3 a).
Proof.
  intros a m1 m2 m3 S SH HS M (_ & nn1 & n1 & nn2 & nn3 & n3 & R1 & R2 & R3).
  assert (I : initiator a m1 m2 m3).
  { split; [exists nn1, n1, []; now rewrite app_nil_r|]. split; [eauto|eauto]. }
  split; [exact I|]. assert (SO : sizes_ok (my_suite (s0 a))) by (rewrite HS; now apply suite_sizes).
  destruct (initiator_facts _ _ _ _ I SO M) as (l1 & gx & x2 & d & cr0 & pub & x3 & sig & ct & F).
  destruct F as (_ & K1 & _ & _ & _ & ((K2 & _) & _) & _ & _ & _ & ((K3 & _) & _) & _).
  assert (T1 : the_suite (s1 a) = table S) by (rewrite <- HS; apply K1). rewrite T1 in K2. rewrite K2 in K3.
  split; [exact K3|].
  destruct (message_1_compose_k [] _ INITIATOR nn1 n1 _ eq_refl HS _ _ R1) as (e & X & A). cbn [w_tr] in X. rewrite app_nil_r in X. subst e. split; [exact A|].
  destruct (message_2_process_k (ev1 a) _ INITIATOR nn2 m2 _ eq_refl T1 _ _ R2) as (e & X & A2). cbn [w_tr] in X. apply app_inv_tail in X. subst e. split; [exact A2|].
  destruct (message_3_compose_k (ev2 a ++ ev1 a) _ INITIATOR nn3 n3 _ eq_refl K2 _ _ R3) as (e & X & A3). cbn [w_tr] in X. apply app_inv_tail in X. subst e. exact A3.
Qed.
Lemma responder_asks : forall b m1 m2 m3 S, shipped S -> my_suite (s0 b) = table S -> is_message m2 -> responder_run b m1 m2 m3 ->
  responder b m1 m2 m3 /\ the_suite (s3 b) = table S /\
  asks [] (table S) (ev1 b) /\ asks (ev1 b) (table S) (ev2 b) /\ asks (ev2 b ++ ev1 b) (table S) (ev3 b).
Proof.
  intros a m1 m2 m3 S SH HS M (_ & nn1 & nn2 & n2 & nn3 & R1 & R2 & R3).
  assert (I : responder a m1 m2 m3).
  { split; [exists nn1, []; now rewrite app_nil_r|]. split; [eauto|eauto]. }
  split; [exact I|]. assert (SO : sizes_ok (my_suite (s0 a))) by (rewrite HS; now apply suite_sizes).
  destruct (responder_facts _ _ _ _ I SO (proj2 M)) as (x2 & sig & x3 & d & cr0 & pub & ct & F).
  destruct F as (_ & K1 & _ & _ & _ & _ & _ & _ & _ & ((K2 & _) & _) & _ & _ & ((K3 & _) & _) & _).
  assert (T1 : the_suite (s1 a) = table S) by (rewrite <- HS; apply K1). rewrite T1 in K2. rewrite K2 in K3.
  split; [exact K3|].
  destruct (message_1_process_k [] _ RESPONDER nn1 m1 _ eq_refl HS _ _ R1) as (e & X & A). cbn [w_tr] in X. rewrite app_nil_r in X. subst e. split; [exact A|].
  destruct (message_2_compose_k (ev1 a) _ RESPONDER nn2 n2 _ eq_refl T1 _ _ R2) as (e & X & A2). cbn [w_tr] in X. apply app_inv_tail in X. subst e. split; [exact A2|].
  destruct (message_3_process_k (ev2 a ++ ev1 a) _ RESPONDER nn3 m3 _ eq_refl K2 _ _ R3) as (e & X & A3). cbn [w_tr] in X. apply app_inv_tail in X. subst e. exact A3.
Qed.
Lemma init_configured : forall c, from_init c -> configured c.
Proof. intros c (c0 & l & rs & H & R). exists c0, l, rs, []. now split. Qed.

(** The contract, call by call. *)
Section Uses.
Variables (S : suite) (p : primitives) (mine : Z -> option (Z * bytes)).
Hypothesis (SH : shipped S) (U : uses E S p mine).
Lemma contract : forall t0 e, (forall id v r, mine id = Some v -> ~ In (EvDestroy (key_id id) r) t0) -> asks t0 (table S) e ->
  obeys p (keys_of mine) e /\ apart e /\ forall id v r, mine id = Some v -> ~ In (EvDestroy (key_id id) r) (e ++ t0).
Proof.
  destruct U as (L & h & st & [FI SZ] & IM & LK). intros t0 e N A.
  destruct (asks_obey S mine h st p FI SZ SH IM LK t0 N e A) as [O P]. split; [exact O|]. split; [exact P|].
  exact (proj1 (asks_intact S mine h st FI LK t0 N e A)).
Qed.
Lemma contract3 : forall a, asks [] (table S) (ev1 a) -> asks (ev1 a) (table S) (ev2 a) -> asks (ev2 a ++ ev1 a) (table S) (ev3 a) ->
  (obeys p (keys_of mine) (ev1 a) /\ obeys p (keys_of mine) (ev2 a) /\ obeys p (keys_of mine) (ev3 a)) /\
  apart (ev1 a) /\ apart (ev2 a) /\ apart (ev3 a) /\
  forall id v r, mine id = Some v -> ~ In (EvDestroy (key_id id) r) (ev3 a ++ ev2 a ++ ev1 a).
Proof.
  intros a A1 A2 A3. destruct (contract [] _ ltac:(intros ? ? ? ? []) A1) as (O1 & P1 & N1). rewrite app_nil_r in N1.
  destruct (contract _ _ N1 A2) as (O2 & P2 & N2). destruct (contract _ _ N2 A3) as (O3 & P3 & N3). tauto.
Qed.
End Uses.
End Party.

Section Deployed.
Variables (EI ER : env) (S : suite) (p : primitives) (mine_i mine_r : Z -> option (Z * bytes)) (a b : trip) (m1 m2 m3 : bytes).
Hypothesis D : deployed EI ER S p mine_i mine_r a b m1 m2 m3.
Lemma deployed_exchange : exchange EI ER p (keys_of mine_i) (keys_of mine_r) a b m1 m2 m3.
Proof.
  destruct D as (SH & CO & UI & UR & HA & HB & RI & RR & M1 & M2 & M3 & TY & H1 & H2).
  destruct (initiator_asks _ _ _ _ _ SH HA M2 RI) as (I & _ & A1 & A2 & A3). destruct (responder_asks _ _ _ _ _ SH HB M2 RR) as (R & _ & B1 & B2 & B3).
  destruct (contract3 _ _ _ SH UI _ A1 A2 A3) as (OI & _ & _ & PI & _). destruct (contract3 _ _ _ SH UR _ B1 B2 B3) as (OR & _ & PR & _ & _).
  split; [apply init_configured, RI|]. split; [apply init_configured, RR|]. do 6 (split; [assumption|]). do 6 (split; [assumption|]).
  split; [rewrite HA; now apply suite_sizes|]. split; [rewrite HB; now apply suite_sizes|]. split; [exact TY|]. intros _. congruence.
Qed.
Lemma later_i : forall ra ea, @afterwards EI a ra ea -> @later EI (s3 a) ra ea /\ obeys p (keys_of mine_i) ea.
Proof.
  intros ra ea (l & c' & Hl & R). split; [exists l; eauto|].
  destruct (peers_alive _ _ _ _ _ _ _ _ _ _ deployed_exchange) as (_ & _ & O & _).
  destruct D as (SH & CO & UI & UR & HA & HB & RI & RR & M1 & M2 & M3 & TY & H1 & H2).
  destruct (initiator_asks _ _ _ _ _ SH HA M2 RI) as (I & T3 & A1 & A2 & A3). destruct (contract3 _ _ _ SH UI _ A1 A2 A3) as (_ & _ & _ & _ & N).
  destruct (runs_asks _ _ _ _ _ _ Hl O T3 R) as (e & X & A). cbn [w_tr] in X. apply app_inv_tail in X. subst e.
  exact (proj1 (contract _ _ _ SH UI _ _ N A)).
Qed.
Lemma later_r : forall ra ea, @afterwards ER b ra ea -> @later ER (s3 b) ra ea /\ obeys p (keys_of mine_r) ea.
Proof.
  intros ra ea (l & c' & Hl & R). split; [exists l; eauto|].
  destruct (peers_alive _ _ _ _ _ _ _ _ _ _ deployed_exchange) as (_ & _ & _ & O).
  destruct D as (SH & CO & UI & UR & HA & HB & RI & RR & M1 & M2 & M3 & TY & H1 & H2).
  destruct (responder_asks _ _ _ _ _ SH HB M2 RR) as (I & T3 & A1 & A2 & A3). destruct (contract3 _ _ _ SH UR _ A1 A2 A3) as (_ & _ & _ & _ & N).
  destruct (runs_asks _ _ _ _ _ _ Hl O T3 R) as (e & X & A). cbn [w_tr] in X. apply app_inv_tail in X. subst e.
  exact (proj1 (contract _ _ _ SH UR _ _ N A)).
Qed.
Lemma deployed_secrets :
  c_status (s3 a) = SM_COMPLETED /\ c_status (s3 b) = SM_COMPLETED /\
  c_th_state (s3 a) = TH_4 /\ c_th_state (s3 b) = TH_4 /\ th_of (s3 a) = th_of (s3 b) /\
  c_prk_state (s3 a) = PRK_4E3M /\ c_prk_state (s3 b) = PRK_4E3M /\ prk_of (s3 a) = prk_of (s3 b).
Proof. exact (same_secrets _ _ _ _ _ _ _ _ _ _ deployed_exchange). Qed.
Lemma deployed_exports : forall ra ea ra1 x ra2 rb eb rb1 y rb2 label n sa sb,
  @afterwards EI a ra ea -> expands_ok ea -> ra = ra1 ++ x :: ra2 ->
  @afterwards ER b rb eb -> expands_ok eb -> rb = rb1 ++ y :: rb2 ->
  entropies ra1 = entropies rb1 -> 0 <= n < 2 ^ 32 ->
  export_of x label n sa -> export_of y label n sb -> sa = sb.
Proof.
  intros ra ea ra1 x ra2 rb eb rb1 y rb2 label n sa sb LA XA RA LB XB RB EN N SA SB.
  destruct (later_i _ _ LA) as [LA' OA]. destruct (later_r _ _ LB) as [LB' OB].
  exact (same_exports _ _ _ _ _ _ _ _ _ _ deployed_exchange _ _ _ _ _ _ _ _ _ _ _ _ _ _ _ _ LA' OA XA RA LB' OB XB RB EN N SA SB).
Qed.
Lemma deployed_oscore : forall ra ea ra1 x ra2 rb eb rb1 y rb2 n1 n2 sa ta ia ja sb tb ib jb,
  @afterwards EI a ra ea -> expands_ok ea -> ra = ra1 ++ x :: ra2 ->
  @afterwards ER b rb eb -> expands_ok eb -> rb = rb1 ++ y :: rb2 ->
  entropies ra1 = entropies rb1 -> 0 <= n1 < 2 ^ 32 -> 0 <= n2 < 2 ^ 32 ->
  oscore_of x n1 n2 sa ta ia ja -> oscore_of y n1 n2 sb tb ib jb -> sa = sb /\ ta = tb /\ ia = jb /\ ja = ib.
Proof.
  intros ra ea ra1 x ra2 rb eb rb1 y rb2 n1 n2 sa ta ia ja sb tb ib jb LA XA RA LB XB RB EN N1 N2 SA SB.
  destruct (later_i _ _ LA) as [LA' OA]. destruct (later_r _ _ LB) as [LB' OB].
  exact (oscore_mirror _ _ _ _ _ _ _ _ _ _ deployed_exchange _ _ _ _ _ _ _ _ _ _ _ _ _ _ _ _ _ _ _ _ _ _ LA' OA XA RA LB' OB XB RB EN N1 N2 SA SB).
Qed.
End Deployed.
(** The contract of one party, over its whole life. *)
Lemma initiator_contract : forall (E : env) S p mine a m1 m2 m3, shipped S -> uses E S p mine -> my_suite (s0 a) = table S ->
  is_message m2 -> initiator_run a m1 m2 m3 ->
  obeys p (keys_of mine) (ev1 a) /\ obeys p (keys_of mine) (ev2 a) /\ obeys p (keys_of mine) (ev3 a) /\
  apart (ev1 a) /\ apart (ev2 a) /\ apart (ev3 a).
Proof.
  intros E S p mine a m1 m2 m3 SH U HA M R. destruct (initiator_asks _ _ _ _ _ SH HA M R) as (_ & _ & A1 & A2 & A3).
  destruct (contract3 _ _ _ SH U _ A1 A2 A3) as ((O1 & O2 & O3) & P1 & P2 & P3 & _). do 5 (split; [assumption|]). assumption.
Qed.
Lemma responder_contract : forall (E : env) S p mine b m1 m2 m3, shipped S -> uses E S p mine -> my_suite (s0 b) = table S ->
  is_message m2 -> responder_run b m1 m2 m3 ->
  obeys p (keys_of mine) (ev1 b) /\ obeys p (keys_of mine) (ev2 b) /\ obeys p (keys_of mine) (ev3 b) /\
  apart (ev1 b) /\ apart (ev2 b) /\ apart (ev3 b).
Proof.
  intros E S p mine a m1 m2 m3 SH U HA M R. destruct (responder_asks _ _ _ _ _ SH HA M R) as (_ & _ & A1 & A2 & A3).
  destruct (contract3 _ _ _ SH U _ A1 A2 A3) as ((O1 & O2 & O3) & P1 & P2 & P3 & _). do 5 (split; [assumption|]). assumption.
Qed.
(** Signatures of either party. *)
Lemma party_signs : forall (E : env) (L : libs) S mine h st a m1 m2 m3, shipped S -> device L -> linked E L S mine h st ->
  my_suite (s0 a) = table S -> is_message m2 -> initiator_run a m1 m2 m3 \/ responder_run a m1 m2 m3 ->
  signs L S mine (ev1 a) /\ signs L S mine (ev2 a) /\ signs L S mine (ev3 a).
Proof.
  intros E L S mine h st a m1 m2 m3 SH [FI SZ] LK HA M R.
  assert (X : asks [] (table S) (ev1 a) /\ asks (ev1 a) (table S) (ev2 a) /\ asks (ev2 a ++ ev1 a) (table S) (ev3 a)).
  { destruct R as [R|R]; [destruct (initiator_asks _ _ _ _ _ SH HA M R) as (_ & _ & X)|destruct (responder_asks _ _ _ _ _ SH HA M R) as (_ & _ & X)]; exact X. }
  destruct X as (A1 & A2 & A3).
  assert (N0 : intact mine []) by (intros ? ? ? ? []).
  pose proof (proj1 (asks_intact S mine h st FI LK [] N0 _ A1)) as N1. rewrite app_nil_r in N1.
  pose proof (proj1 (asks_intact S mine h st FI LK _ N1 _ A2)) as N2.
  split; [exact (asks_sign S mine h st FI SH LK _ N0 _ A1)|]. split; [exact (asks_sign S mine h st FI SH LK _ N1 _ A2)|exact (asks_sign S mine h st FI SH LK _ N2 _ A3)].
Qed.
