(** Every message is handled once per session.  No code of /repo is modelled here. *)
From Verif Require Import Monad Api Common Msg1 Msg2 Msg3 Msg4 Exporter History Spec Logic Frame Calls HistoryProofs Attempts.
From Verif Require Counts Quiet Claims3.

Section Attempts.
Context {E : env}.
(** ** Status only moves forward *)
Definition rank (s : Z) : Z :=
  if s =? SM_START then 0 else if (s =? SM_WAIT_M2) || (s =? SM_RECEIVED_M1) then 1
  else if (s =? SM_VERIFIED_M2) || (s =? SM_WAIT_M3) then 2 else if s =? SM_COMPLETED then 3 else 4.
Lemma rank_required : forall k c, permitted k c -> rank (c_status c) = message_of k - 1.
Proof. intros k c P. unfold permitted in P. destruct k; cbn [required message_of] in *; injection P as -> _ _; reflexivity. Qed.
Lemma rank_le : forall s, rank s <= 4.
Proof. intro s. unfold rank. repeat match goal with |- (if ?b then _ else _) <= _ => destruct b end; lia. Qed.
Lemma acted_status : forall k w r w', post_of k w r w' -> c_status (w_ctx w') = if r =? OK then next_of k else SM_ABORTED.
Proof.
  intros k w r w' [_ _ C3 C4]. destruct (r =? OK) eqn:R.
  - apply Z.eqb_eq in R. destruct (C4 R) as (c1 & _ & Q). apply kept_fields in Q as (_ & _ & _ & Q & _). rewrite Q. destruct k; reflexivity.
  - apply Z.eqb_neq in R. destruct (C3 R) as (e & c1 & _ & _ & Q). apply kept_fields in Q as (_ & _ & _ & Q & _). rewrite Q. reflexivity.
Qed.
Lemma acted_rank : forall a k w r w', kind a = Some k -> nonneg w -> do_api a w = Ret r w' ->
  (w' = w /\ (fst r = E_BAD_STATE \/ fst r = E_INVALID_ARG)) \/ (permitted k (w_ctx w) /\ message_of k <= rank (c_status (w_ctx w'))).
Proof.
  intros a k w r w' K N H. destruct (msg_cases _ _ _ _ _ K N H) as [(-> & Y)|(_ & P & C & _)]; [left; split; [reflexivity|]; destruct Y as [[Y _]|[Y _]]; auto|].
  right. split; [exact P|]. rewrite (acted_status _ _ _ _ C). destruct (fst r =? OK); destruct k; cbn; lia.
Qed.
Lemma step_rank : forall a w r w', a <> AInit -> a <> ADeinit -> nonneg w -> do_api a w = Ret r w' -> rank (c_status (w_ctx w)) <= rank (c_status (w_ctx w')).
Proof.
  intros a w r w' A D N H. destruct (kind a) as [k|] eqn:K.
  - destruct (acted_rank _ _ _ _ _ K N H) as [[-> _]|[P L]]; [lia|]. rewrite (rank_required _ _ P). lia.
  - pose proof (sat_run _ _ _ _ _ _ _ (other_post _ _ K A D N) H) as [_ O]. destruct O as [_ _ _ [O|(_ & O & _)] _]; rewrite O; [lia|]. apply (rank_le (c_status (w_ctx w))).
Qed.
Lemma runs_rank : forall l w rs w', ~ In AInit l -> ~ In ADeinit l -> nonneg w -> runs l w = Ret rs w' -> nonneg w' /\ rank (c_status (w_ctx w)) <= rank (c_status (w_ctx w')).
Proof.
  induction l as [|a l IH]; intros w rs w' A D N H; [apply runs_nil in H as [_ ->]; split; [exact N|lia]|].
  apply runs_cons in H as (r & w1 & rs' & H1 & H2 & _). cbn [In] in A, D.
  assert (A1 : a <> AInit) by tauto. assert (D1 : a <> ADeinit) by tauto.
  pose proof (step_rank _ _ _ _ A1 D1 N H1). destruct (IH _ _ _ (fun x => A (or_intror x)) (fun x => D (or_intror x)) (step_nonneg _ _ _ _ N H1) H2). split; [assumption|lia].
Qed.
Lemma reachable_nonneg : forall w, reachable w -> nonneg w.
Proof.
  intros w (c & l & rs & H). assert (N : nonneg (Wd c [])) by (intro b; cbn; lia). revert N H. generalize (Wd c []) as w0. revert rs.
  induction l as [|a l IH]; intros rs w0 N H; [apply runs_nil in H as [_ ->]; exact N|].
  apply runs_cons in H as (r & w1 & rs' & H1 & H2 & _). exact (IH _ _ (step_nonneg _ _ _ _ N H1) H2).
Qed.
Lemma message_once : forall w a k r w1 l rs w2 b j s w3, reachable w -> kind a = Some k -> kind b = Some j -> message_of k = message_of j ->
  do_api a w = Ret r w1 -> w1 <> w -> ~ In AInit l -> ~ In ADeinit l -> runs l w1 = Ret rs w2 -> do_api b w2 = Ret s w3 ->
  w3 = w2 /\ (fst s = E_BAD_STATE \/ fst s = E_INVALID_ARG).
Proof.
  intros w a k r w1 l rs w2 b j s w3 RW KA KB S H1 D NI ND H2 H3. pose proof (reachable_nonneg _ RW) as N.
  destruct (acted_rank _ _ _ _ _ KA N H1) as [[X _]|[_ L]]; [contradiction|].
  destruct (runs_rank _ _ _ _ NI ND (step_nonneg _ _ _ _ N H1) H2) as [N2 L2].
  destruct (acted_rank _ _ _ _ _ KB N2 H3) as [X|[P _]]; [exact X|]. rewrite (rank_required _ _ P) in L2. lia.
Qed.

(** ** Counting *)
Definition gone (c : ctx) : bool := (c_status c =? SM_ABORTED) || (negb (c_is_init c) && (c_csuite_len c =? 0) && (c_status c =? SM_START)).
Lemma gone_dead : forall c, gone c = true <-> dead c.
Proof. intro c. unfold gone, dead. destruct (c_is_init c); cbn [negb andb]; rewrite ?orb_true_iff, ?andb_true_iff, ?Z.eqb_eq; intuition discriminate. Qed.
Section Count.
Variables (P : event -> bool) (n : mkind -> Z) (f : Z -> Z).
Definition per_call (a : api) : Z := match kind a with Some k => n k | None => 0 end.
Hypothesis P_call : forall a w r w', do_api a w = Ret r w' -> exists e, w_tr w' = e ++ w_tr w /\ count P e <= per_call a.
Hypothesis f_pos : forall s, 0 <= f s.
Hypothesis f_next : forall k a b d, required k = (a, b, d) -> n k + f (next_of k) <= f a /\ n k <= f a.
Definition left_over (c : ctx) : Z := if gone c then 0 else f (c_status c).
Lemma left_pos : forall c, 0 <= left_over c.
Proof. intro c. unfold left_over. destruct (gone c); [lia|apply f_pos]. Qed.
Lemma left_le : forall c, left_over c <= f (c_status c).
Proof. intro c. unfold left_over. destruct (gone c); [apply f_pos|lia]. Qed.
Lemma count_app : forall a b, count P (a ++ b) = count P a + count P b.
Proof. intros a b. unfold count. rewrite filter_app. apply zlen_app. Qed.
Lemma count_nil : count P [] = 0. Proof. reflexivity. Qed.
Lemma api_eq_deinit : forall a, a = ADeinit \/ a <> ADeinit.
Proof. intros []; (left; reflexivity) || (right; discriminate). Qed.
Lemma m1_still : forall a k w r w', kind a = Some k -> k = M1c \/ k = M1p ->
  args_ok a -> permitted k (w_ctx w) -> c_csuite_len (w_ctx w) = 0 -> do_api a w = Ret r w' -> w_tr w' = w_tr w.
Proof.
  intros a k w r w' Hk Hk' Ha Hp Hc H.
  destruct a; cbn [kind] in Hk; try discriminate; inversion Hk; subst k;
    try (destruct Hk'; discriminate); cbn [args_ok] in Ha; destruct Ha as [-> Ha];
    match type of Hp with permitted ?k _ => apply (in_state_permitted k _ _ _ _ eq_refl) in Hp end;
    cbn [do_api] in H.
  - apply Z.eqb_neq in Ha. unfold msg_out, message_1_compose in H. rewrite Ha in H.
    cbn [negb orb] in H. unfold bind, getc, enter, modify in H. rewrite Hp, Hc in H. cbn in H.
    inversion H; subst. reflexivity.
  - assert (Ha' : zlen msg <> 0) by (intro X; apply zlen_0 in X; congruence). apply Z.eqb_neq in Ha'.
    unfold no_out, message_1_process in H. rewrite Ha' in H. cbn [negb orb] in H.
    unfold bind, getc, enter, modify in H. rewrite Hp, Hc in H.
    destruct (dec_message_1 cf_canon msg) as [[dok d] rest]. cbn in H.
    destruct (negb dok && (zlen msg <=? (if dok then zlen msg - zlen rest else 0))); inversion H; subst; reflexivity.
Qed.
Lemma step_count : forall a w r w', a <> AInit -> nonneg w -> do_api a w = Ret r w' ->
  exists e, w_tr w' = e ++ w_tr w /\ count P e + left_over (w_ctx w') <= left_over (w_ctx w).
Proof.
  intros a w r w' A N H. destruct (gone (w_ctx w)) eqn:G.
  - assert (G' : gone (w_ctx w') = true). { apply gone_dead. eapply dead_step; eauto. now apply gone_dead. }
    unfold left_over. rewrite G, G'. destruct (kind a) as [k|] eqn:K.
    + exists []. rewrite count_nil. split; [|lia]. cbn [app].
      destruct (msg_cases _ _ _ _ _ K N H) as [(-> & _)|(AO & PM & _ & _)]; [reflexivity|]. apply gone_dead in G. destruct G as [G|(_ & G1 & G2)].
      * exfalso. unfold permitted in PM. rewrite G in PM. destruct k; discriminate PM.
      * apply (m1_still a k w r w' K); try assumption. unfold permitted in PM. rewrite G2 in PM. destruct k; auto; discriminate PM.
    + destruct (P_call _ _ _ _ H) as (e & T & L). unfold per_call in L. rewrite K in L. exists e. split; [exact T|lia].
  - assert (LW : left_over (w_ctx w) = f (c_status (w_ctx w))) by (unfold left_over; now rewrite G).
    destruct (P_call _ _ _ _ H) as (e & T & L). unfold per_call in L. destruct (kind a) as [k|] eqn:K.
    + destruct (msg_cases _ _ _ _ _ K N H) as [(-> & _)|(_ & PM & C & _)]; [exists []; rewrite count_nil; split; [reflexivity|lia]|].
      exists e. split; [exact T|]. rewrite LW. unfold permitted in PM. destruct (f_next _ _ _ _ (eq_sym PM)) as [F1 F2].
      pose proof (acted_status _ _ _ _ C) as S. destruct (fst r =? OK).
      * pose proof (left_le (w_ctx w')) as X. rewrite S in X. lia.
      * assert (X : left_over (w_ctx w') = 0) by (unfold left_over, gone; now rewrite S). lia.
    + destruct (api_eq_deinit a) as [->|D].
      { destruct (deinit_run _ _ _ H) as [(_ & _ & ->)|(_ & _ & ->)]; exists []; rewrite count_nil; (split; [reflexivity|]); [|lia]. pose proof (left_pos (w_ctx w)). change (0 + 0 <= left_over (w_ctx w)). lia. }
      exists e. split; [exact T|]. rewrite LW.
      pose proof (sat_run _ _ _ _ _ _ _ (other_post _ _ K A D N) H) as [_ O]. destruct O as [_ _ _ [O|(_ & O & _)] _].
      * pose proof (left_le (w_ctx w')) as X. rewrite O in X. lia.
      * assert (X : left_over (w_ctx w') = 0) by (unfold left_over, gone; now rewrite O). pose proof (f_pos (c_status (w_ctx w))). lia.
Qed.
Lemma runs_count : forall l w rs w', ~ In AInit l -> nonneg w -> runs l w = Ret rs w' ->
  exists e, w_tr w' = e ++ w_tr w /\ count P e + left_over (w_ctx w') <= left_over (w_ctx w).
Proof.
  induction l as [|a l IH]; intros w rs w' A N H; [apply runs_nil in H as [_ ->]; exists []; rewrite count_nil; split; [reflexivity|lia]|].
  apply runs_cons in H as (r & w1 & rs' & H1 & H2 & _). cbn [In] in A. assert (A1 : a <> AInit) by (intros ->; tauto).
  destruct (step_count _ _ _ _ A1 N H1) as (e1 & T1 & L1). destruct (IH _ _ _ (fun x => A (or_intror x)) (step_nonneg _ _ _ _ N H1) H2) as (e2 & T2 & L2).
  exists (e2 ++ e1). rewrite T2, T1, count_app. split; [apply app_assoc|lia].
Qed.
Lemma total : forall l w rs w' e, ~ In AInit l -> nonneg w -> runs l w = Ret rs w' -> w_tr w' = e ++ w_tr w -> count P e <= f (c_status (w_ctx w)).
Proof.
  intros l w rs w' e A N H T. destruct (runs_count _ _ _ _ A N H) as (e' & T' & L). rewrite T in T'. apply app_inv_tail in T' as <-.
  pose proof (left_pos (w_ctx w')). pose proof (left_le (w_ctx w)). lia.
Qed.
End Count.

(** ** What one call may ask *)
Definition nz (n : nat) : Z := Z.of_nat n.
Lemma count_nat : forall P e, count P e = nz (length (filter P e)). Proof. reflexivity. Qed.
Lemma count_same : forall P Q e, (forall x, P x = Q x) -> count P e = count Q e.
Proof. intros P Q e H. unfold count. now rewrite (filter_ext P Q H). Qed.
Lemma count_or : forall P Q e, (forall x, P x && Q x = false) -> count (fun x => P x || Q x) e = count P e + count Q e.
Proof.
  intros P Q e H. induction e as [|x e IH]; [reflexivity|]. unfold count in *. cbn [filter]. specialize (H x).
  destruct (P x), (Q x); cbn [orb]; try discriminate; rewrite ?zlen_cons, ?IH; lia.
Qed.
Definition counts_of (k : Counts.kind) (j : mkind) : nat :=
  match k, j with
  | Counts.KPair, (M1c | M2c) | Counts.KSign, (M2c | M3c) | Counts.KVerify, (M2p | M3p) | Counts.KEnc, (M3c | M4c) | Counts.KDec, (M3p | M4p) => 1
  | _, _ => 0
  end%nat.
Lemma api_counts : forall k a, Counts.upto (Counts.of_kind k) (match kind a with Some j => counts_of k j | None => 0%nat end) (do_api a).
Proof.
  intros k a. destruct a; cbn [do_api kind]; try (apply Claims3.cfg_u).
  - apply Claims3.msg_out_u. destruct k; apply (Counts.m1_compose_u).
  - apply Claims3.no_out_u. destruct k; apply (Counts.m1_process_u).
  - apply Claims3.msg_out_u. destruct k; apply (Counts.m2_compose_u).
  - apply Claims3.no_out_u. destruct k; apply (Counts.m2_process_u).
  - apply Claims3.msg_out_u. destruct k; apply (Counts.m3_compose_u).
  - apply Claims3.no_out_u. destruct k; apply (Counts.m3_process_u).
  - apply Claims3.msg_out_u. destruct k; apply (Counts.m4_compose_u).
  - apply Claims3.no_out_u. destruct k; apply (Counts.m4_process_u).
  - apply Claims3.msg_out_u. apply (Counts.export_u).
  - apply Claims3.no_out_u. apply (Counts.update_u).
  - match goal with |- Counts.upto _ _ (bind (export_oscore_session ?n ?a ?b ?c ?d) _) => pose proof (Counts.oscore_u k n a b c d) as H end. intro w.
    specialize (H w). unfold bind. destruct (export_oscore_session _ _ _ _ _ w) as [[r o] w'|]; [|exact I]. exact H.
  - intro w. unfold bind, getc. destruct (error_get_code _ _). exists []. split; [reflexivity|apply Nat.le_0_l].
  - intro w. unfold bind, getc. destruct (error_get_cipher_suites _ _ _ _) as [[r o] q]. exists []. split; [reflexivity|apply Nat.le_0_l].
Qed.
Lemma one_call : forall k a w r w', do_api a w = Ret r w' -> exists e, w_tr w' = e ++ w_tr w /\ count (Counts.of_kind k) e <= per_call (fun j => nz (counts_of k j)) a.
Proof.
  intros k a w r w' H. pose proof (api_counts k a w) as U. rewrite H in U. destruct U as (e & T & L). exists e. split; [exact T|].
  rewrite count_nat. unfold per_call, nz. destruct (kind a); lia.
Qed.
Definition asks_of (k : Quiet.kind) (j : mkind) : nat :=
  match k, j with
  | Quiet.KFetch, (M2c | M3c) | Quiet.KVerify, (M2p | M3p) | Quiet.KCompose, (M1c | M2c | M3c | M4c) | Quiet.KProcess, (M1p | M2p | M3p | M4p) => 1
  | _, _ => 0
  end%nat.
Lemma one_ask : forall k a w r w', do_api a w = Ret r w' -> exists e, w_tr w' = e ++ w_tr w /\ count (Quiet.of_kind k) e <= per_call (fun j => nz (asks_of k j)) a.
Proof.
  intros k a w r w' H. pose proof (Claims3.api_u k a w) as U. rewrite H in U. destruct U as (e & T & L). exists e. split; [exact T|].
  rewrite count_nat. unfold per_call, nz. revert L. destruct k, a; cbn [kind asks_of Claims3.allowed]; intro L; try exact (inj_le _ _ L).
Qed.
Lemma two_calls : forall P Q n m a w r w', (forall x, P x && Q x = false) -> (exists e, w_tr w' = e ++ w_tr w /\ count P e <= per_call n a) ->
  (exists e, w_tr w' = e ++ w_tr w /\ count Q e <= per_call m a) -> do_api a w = Ret r w' ->
  exists e, w_tr w' = e ++ w_tr w /\ count (fun x => P x || Q x) e <= per_call (fun j => n j + m j) a.
Proof.
  intros P Q n m a w r w' D (e & T & L) (e' & T' & L') _. rewrite T in T'. apply app_inv_tail in T' as <-. exists e. split; [exact T|].
  rewrite (count_or _ _ _ D). unfold per_call in *. destruct (kind a); lia.
Qed.
Definition before (n : Z) (s : Z) : Z := if rank s <? n then 1 else 0.
Ltac fnext := intros k a b d X; destruct k; cbn [required] in X; injection X as <- <- <-; vm_compute; split; discriminate.
Definition f_pair (s : Z) : Z := if (s =? SM_START) || (s =? SM_RECEIVED_M1) then 1 else 0.
Definition f_sign (s : Z) : Z := if (s =? SM_START) || (s =? SM_RECEIVED_M1) || (s =? SM_WAIT_M2) || (s =? SM_VERIFIED_M2) then 1 else 0.
Definition f_verify (s : Z) : Z := if (s =? SM_START) || (s =? SM_RECEIVED_M1) || (s =? SM_WAIT_M2) || (s =? SM_WAIT_M3) then 1 else 0.
Definition f_aead (s : Z) : Z := before 3 s + before 4 s.
Definition f_ead (s : Z) : Z := before 1 s + before 2 s + before 3 s + before 4 s.
Lemma total_le : forall P n f m l w rs w' e, (forall a w r w', do_api a w = Ret r w' -> exists e, w_tr w' = e ++ w_tr w /\ count P e <= per_call n a) ->
  (forall s, 0 <= f s <= m) -> (forall k a b d, required k = (a, b, d) -> n k + f (next_of k) <= f a /\ n k <= f a) ->
  ~ In AInit l -> nonneg w -> runs l w = Ret rs w' -> w_tr w' = e ++ w_tr w -> count P e <= m.
Proof.
  intros P n f m l w rs w' e C F X A N H T. eapply Z.le_trans; [exact (total P n f C (fun s => proj1 (F s)) X _ _ _ _ _ A N H T)|]. apply F.
Qed.
Lemma before_le : forall n s, 0 <= before n s <= 1.
Proof. intros n s. unfold before. destruct (rank s <? n); lia. Qed.
Lemma counts : forall l w rs w' e, reachable w -> ~ In AInit l -> runs l w = Ret rs w' -> w_tr w' = e ++ w_tr w ->
  count makes_pair e <= 1 /\ count signs e <= 1 /\ count verifies e <= 1 /\ count encrypts e + count decrypts e <= 2 /\
  count fetches e <= 1 /\ count checks e <= 1 /\ count ead_asked e <= 4.
Proof.
  intros l w rs w' e RW A H T. pose proof (reachable_nonneg _ RW) as N.
  rewrite (count_same makes_pair (Counts.of_kind Counts.KPair)), (count_same signs (Counts.of_kind Counts.KSign)), (count_same verifies (Counts.of_kind Counts.KVerify)),
    (count_same encrypts (Counts.of_kind Counts.KEnc)), (count_same decrypts (Counts.of_kind Counts.KDec)), (count_same fetches (Quiet.of_kind Quiet.KFetch)),
    (count_same checks (Quiet.of_kind Quiet.KVerify)), (count_same ead_asked (fun x => Quiet.of_kind Quiet.KCompose x || Quiet.of_kind Quiet.KProcess x)) by (now intros []).
  rewrite <- (count_or (Counts.of_kind Counts.KEnc)) by (now intros []).
  split; [apply (total_le _ _ f_pair 1 _ _ _ _ e (one_call Counts.KPair)) with (3 := A) (4 := N) (5 := H) (6 := T); [intro s; unfold f_pair; destruct (_ || _); lia|fnext]|].
  split; [apply (total_le _ _ f_sign 1 _ _ _ _ e (one_call Counts.KSign)) with (3 := A) (4 := N) (5 := H) (6 := T); [intro s; unfold f_sign; destruct (_ || _); lia|fnext]|].
  split; [apply (total_le _ _ f_verify 1 _ _ _ _ e (one_call Counts.KVerify)) with (3 := A) (4 := N) (5 := H) (6 := T); [intro s; unfold f_verify; destruct (_ || _); lia|fnext]|].
  split. { apply (total_le _ (fun j => nz (counts_of Counts.KEnc j) + nz (counts_of Counts.KDec j)) f_aead 2 l w rs w' e) with (4 := A) (5 := N) (6 := H) (7 := T);
    [intros a w0 r w1 HA; refine (two_calls _ _ _ _ _ _ _ _ _ (one_call Counts.KEnc _ _ _ _ HA) (one_call Counts.KDec _ _ _ _ HA) HA); now intros []
    |intro s; unfold f_aead; pose proof (before_le 3 s); pose proof (before_le 4 s); lia|fnext]. }
  split; [apply (total_le _ _ f_sign 1 _ _ _ _ e (one_ask Quiet.KFetch)) with (3 := A) (4 := N) (5 := H) (6 := T); [intro s; unfold f_sign; destruct (_ || _); lia|fnext]|].
  split; [apply (total_le _ _ f_verify 1 _ _ _ _ e (one_ask Quiet.KVerify)) with (3 := A) (4 := N) (5 := H) (6 := T); [intro s; unfold f_verify; destruct (_ || _); lia|fnext]|].
  apply (total_le _ (fun j => nz (asks_of Quiet.KCompose j) + nz (asks_of Quiet.KProcess j)) f_ead 4 l w rs w' e) with (4 := A) (5 := N) (6 := H) (7 := T);
    [intros a w0 r w1 HA; refine (two_calls _ _ _ _ _ _ _ _ _ (one_ask Quiet.KCompose _ _ _ _ HA) (one_ask Quiet.KProcess _ _ _ _ HA) HA); now intros []
    |intro s; unfold f_ead; pose proof (before_le 1 s); pose proof (before_le 2 s); pose proof (before_le 3 s); pose proof (before_le 4 s); lia|fnext].
Qed.
End Attempts.
