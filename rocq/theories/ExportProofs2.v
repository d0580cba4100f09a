(** Exports over histories: repeatability, authentication, message 4, aborted sessions. *)
From Verif Require Import Monad Api Common Msg1 Msg2 Msg3 Msg4 Exporter History Spec Rfc Uses
  Conform Wire Facts CodecProofs Logic Calls ConfigProofs Sym HistoryProofs SessionProofs CborProofs RfcProofs Steps Steps2 Steps3 Run2 Run2p Run4 Sessions Agree Live Pres Policy ExportProofs.

Section Export.
Context {E : env}.

(** ** Authentication before export *)
Definition early (c : ctx) : Prop := c_th_state c <> TH_4 /\ c_prk_state c <> PRK_OUT.
Ltac ea := unfold early in *; cs; repeat match goal with H : _ /\ _ |- _ => destruct H end; split; first [assumption | discriminate].
Lemma m1c_early : forall nn n, pr early (message_1_compose nn n). Proof. intros. pr_all ea. Qed.
Lemma m1p_early : forall nn n, pr early (message_1_process nn n). Proof. intros. pr_all ea. Qed.
Lemma m2c_early : forall nn n, pr early (message_2_compose nn n). Proof. intros. pr_all ea. Qed.
Lemma m2p_early : forall nn n, pr early (message_2_process nn n). Proof. intros. pr_all ea. Qed.

(** A failing message_3_process. *)
Definition prf (P : ctx -> Prop) (m : M Z) : Prop :=
  forall w, P (w_ctx w) -> sat Any m w (fun r w' => r <> OK -> P (w_ctx w')).
Lemma bind_prf : forall P A (m : M A) k, pr P m -> (forall a, prf P (k a)) -> prf P (bind m k).
Proof. intros P A m k Hm Hk w H. apply sat_bind. eapply sat_conseq; [now apply Hm|]. intros a w1 H1. now apply Hk. Qed.
Lemma getc_prf : forall P k, (forall c, prf P (k c)) -> prf P (bind getc k).
Proof. intros P k Hk w H. apply sat_bind, sat_getc. now apply Hk. Qed.
Lemma pr_prf : forall P m, pr P m -> prf P m.
Proof. intros P m Hm w H. eapply sat_conseq; [now apply Hm|]. intros a w1 H1 _. exact H1. Qed.
Lemma th_4_prf : forall m p, prf early (comp_th_4 m p).
Proof.
  intros m p. unfold comp_th_4, comp_th_next. destruct (_ =? 0); [apply pr_prf; pr_all ea|]. apply getc_prf. intro c.
  destruct (negb _); [apply pr_prf; pr_all ea|]. apply bind_prf; [pr_all ea|]. intro ok. destruct (negb ok); [apply pr_prf; pr_all ea|].
  apply bind_prf; [pr_all ea|]. intro t. destruct (fits _ _); [|apply pr_prf; pr_all ea].
  apply bind_prf; [pr_all ea|]. intro. apply bind_prf; [pr_all ea|]. intro. apply bind_prf; [pr_all ea|]. intros [? ?].
  apply bind_prf; [pr_all ea|]. intro. destruct (_ || _); [apply pr_prf; pr_all ea|].
  intros w H. apply sat_bind, sat_modify, sat_ret. congruence.
Qed.
Lemma m3p_early : forall nn n, prf early (message_3_process nn n).
Proof.
  intros. unfold message_3_process.
  repeat first
    [ match goal with |- prf _ (bind (comp_th_4 _ _) _) =>
        let w := fresh "w" in let H := fresh in intros w H; apply sat_bind; eapply sat_conseq; [apply th_4_prf; exact H|];
        let r := fresh "r" in let w1 := fresh "w" in let H1 := fresh in intros r w1 H1; destruct (r =? OK) eqn:X; cbn [negb];
        [ apply sat_bind; eapply sat_conseq with (P := fun _ _ => True); [unfold sat; now destruct (frees _ _)|];
          intros; apply sat_bind, sat_modify, sat_ret; congruence
        | apply Z.eqb_neq in X; specialize (H1 X); assert (Y : prf early (frees [BMacCtx; BPlaintext] ;;; ret E_TH)) by (apply pr_prf; pr_all ea); exact (Y w1 H1) ] end
    | apply getc_prf; intro
    | apply bind_prf; [solve [pr_all ea]|intro]
    | match goal with |- prf _ (if ?b then _ else _) => destruct b end
    | match goal with |- prf _ (match ?b with _ => _ end) => destruct b end
    | solve [apply pr_prf; pr_all ea] ].
Qed.

Lemma export_th : forall nn l n w r w', do_api (AExport nn l n) w = Ret r w' ->
  c_th_state (w_ctx w') = c_th_state (w_ctx w) /\
  (c_prk_state (w_ctx w') = PRK_OUT -> c_prk_state (w_ctx w) = PRK_OUT \/ c_th_state (w_ctx w) = TH_4) /\
  (fst r = OK -> c_prk_state (w_ctx w') = PRK_OUT).
Proof.
  intros nn label n [c t] r w' R. cbn [do_api] in R. unfold msg_out in R. apply bind_inv in R as ([v b] & w1 & R1 & R). 
  injection R as <- <-. cbn [fst]. pose proof (sat_run _ _ _ _ _ _ _ (export_value nn label n c t) R1) as V.
  destruct (sat_run _ _ _ _ _ _ _ (all_export nn label n c t) R1) as (t' & T & H). cs. cbn [fst] in *.
  split; [|split; [|intro O; apply V in O; apply O]].
  - destruct H as [(N & ->)|[(N & S & q & kid & i & m & r' & o & -> & _)|[(S & S2 & o & -> & _)|(S & S2 & ->)]]]; reflexivity.
  - destruct H as [(N & ->)|[(N & S & q & kid & i & m & r' & o & -> & _)|[(S & S2 & o & -> & _)|(S & S2 & ->)]]]; cs; auto.
Qed.

Definition auth_inv (c : ctx) (s : list mkind) : Prop := ~ early c -> authenticated s.
Lemma early_dec : forall c, early c \/ ~ early c.
Proof. intro c. unfold early. destruct (Z.eq_dec (c_th_state c) TH_4), (Z.eq_dec (c_prk_state c) PRK_OUT); tauto. Qed.
Lemma msg_sat : forall a w r w' (P : ctx -> Prop), do_api a w = Ret r w' -> P (w_ctx w) ->
  match a with
  | AM1Compose nn n => pr P (message_1_compose nn n)
  | AM1Process nn n => pr P (message_1_process nn n)
  | AM2Compose nn n => pr P (message_2_compose nn n)
  | AM2Process nn n => pr P (message_2_process nn n)
  | AM3Process nn n => prf P (message_3_process nn n)
  | _ => False
  end -> match a with AM3Process _ _ => fst r <> OK | _ => True end -> P (w_ctx w').
Proof.
  intros a w r w' P R H K N. destruct a; try contradiction; cbn [do_api] in R;
    unfold msg_out, no_out in R; apply bind_inv in R as (x & w1 & R1 & R); try destruct x; injection R as <- <-; cbn [fst] in N;
    pose proof (sat_run _ _ _ _ _ _ _ (K w H) R1) as Q; auto.
Qed.
Lemma cfg_keys : forall a w r w', is_config a = true -> do_api a w = Ret r w' ->
  c_th_state (w_ctx w') = c_th_state (w_ctx w) /\ c_prk_state (w_ctx w') = c_prk_state (w_ctx w) /\ c_prk (w_ctx w') = c_prk (w_ctx w) /\
  c_prk_len (w_ctx w') = c_prk_len (w_ctx w) /\ c_csuite_idx (w_ctx w') = c_csuite_idx (w_ctx w) /\
  (rekeys a = false -> c_csuites (w_ctx w') = c_csuites (w_ctx w)) /\ c_status (w_ctx w') = c_status (w_ctx w) /\
  c_th (w_ctx w') = c_th (w_ctx w) /\ c_th_len (w_ctx w') = c_th_len (w_ctx w).
Proof.
  intros a w r w' H R. destruct a; try discriminate; cbn [do_api rekeys] in *; rewrite cfg_run in R; injection R as <- <-; cs;
    match goal with |- context [snd (?f (w_ctx w))] => destruct (f (w_ctx w)) as [x c'] eqn:X; cbn [snd] end.
  all: destruct (Z.eq_dec x OK) as [->|N].
  all: try match goal with
    | X : set_methods_call _ _ = _ |- _ => destruct (set_methods_spec _ _ _ _ X) as (A & B & C)
    | X : set_cipher_suites_call _ _ = _ |- _ => destruct (set_cipher_suites_spec _ _ _ _ X) as (A & B & C)
    | X : set_connection_id_call _ _ = _ |- _ => destruct (set_connection_id_spec _ _ _ _ X) as (A & B & C)
    | X : set_user_context_call _ _ = _ |- _ => destruct (set_user_context_spec _ _ _ _ X) as (A & B & C)
    | X : bind_ead_call _ _ = _ |- _ => destruct (bind_ead_spec _ _ _ _ X) as (A & B & C)
    | X : bind_keys_call _ _ = _ |- _ => destruct (bind_keys_spec _ _ _ _ X) as (A & B & C)
    | X : bind_crypto_call _ _ = _ |- _ => destruct (bind_crypto_spec _ _ _ _ X) as (A & B & C)
    | X : bind_credentials_call _ _ = _ |- _ => destruct (bind_credentials_spec _ _ _ _ X) as (A & B & C)
    end.
  all: try (rewrite (B N); repeat split; reflexivity).
  all: try (destruct (proj1 A eq_refl) as [Hi Hx]).
  1-3: destruct Hx as (l & Hl & _); specialize (C eq_refl l Hl).
  1-2: destruct C as (_ & _ & a & b & ->); repeat split; try reflexivity; discriminate.
  1: destruct C as (_ & a & ->); repeat split; reflexivity.
  1-5: destruct (C eq_refl) as (_ & a & ->); repeat split; reflexivity.
Qed.
Lemma query_same : forall a w r w', match a with AErrCode _ | AErrSuites _ _ _ => True | _ => False end ->
  do_api a w = Ret r w' -> w' = w.
Proof.
  intros a w r w' H R. destruct a; try contradiction; cbn [do_api] in R; apply bind_inv in R as (x & w1 & R1 & R);
    injection R1 as <- <-.
  - destruct (error_get_code _ _). injection R as _ <-. reflexivity.
  - destruct (error_get_cipher_suites _ _ _ _) as [[? ?] ?]. injection R as _ <-. reflexivity.
Qed.

(** Permission of a message call as the state it names. *)
Lemma permitted_early : forall k c, permitted k c -> match k with M4c | M4p => c_status c = SM_COMPLETED | _ => early c end.
Proof. intros k c H. unfold permitted in H. destruct k; injection H as A B D; try exact A; unfold early; rewrite B, D; split; discriminate. Qed.
Lemma authenticated_full : forall s, full_handshake s -> authenticated s.
Proof. intros s [->| ->]; unfold authenticated; auto. Qed.
Lemma order_full : forall c s, order_inv c s -> c_status c <> SM_ABORTED -> SM_COMPLETED <= c_status c -> full_handshake s.
Proof.
  intros c s H N L. destruct H as [[H _]|[H|[[H _]|[[H _]|[[H _]|[[H _]|[_ H]]]]]]]; try exact H; try contradiction; rewrite H in L; now compute in L.
Qed.
Lemma aborted_low : forall c, SM_COMPLETED <= c_status c -> c_status c <> SM_ABORTED.
Proof. intros c H X. rewrite X in H. now compute in H. Qed.

Lemma auth_step : forall a w r w' s, a <> AInit -> nonneg w -> order_inv (w_ctx w) s -> auth_inv (w_ctx w) s ->
  do_api a w = Ret r w' -> auth_inv (w_ctx w') (s ++ succeeded [(a, r)]).
Proof.
  intros a w r w' s Ha Hn Ho Hi R. unfold succeeded. cbn [flat_map]. rewrite app_nil_r. unfold rcall, rval. cbn [fst snd].
  destruct (kind a) as [k|] eqn:Hk.
  - destruct (msg_cases _ _ _ _ _ Hk Hn R) as [(-> & Y)|(A1 & A2 & _)].
    { replace (match k with M4c | M4p => [] | _ => if fst r =? OK then [k] else [] end) with (@nil mkind).
      2:{ destruct Y as [[-> _]|[-> _]]; destruct k; reflexivity. }
      rewrite app_nil_r. destruct k; exact Hi. }
    pose proof (permitted_early _ _ A2) as Q. unfold permitted in A2.
    destruct a; cbn [kind] in Hk; try discriminate; injection Hk as <-; cbn [required] in A2; injection A2 as P1 _ _; try (rewrite app_nil_r).
    1: { intro N. exfalso. apply N. apply (msg_sat _ _ _ _ early R Q); [apply m1c_early|exact I]. }
    1: { intro N. exfalso. apply N. apply (msg_sat _ _ _ _ early R Q); [apply m1p_early|exact I]. }
    1: { intro N. exfalso. apply N. apply (msg_sat _ _ _ _ early R Q); [apply m2c_early|exact I]. }
    1: { intro N. exfalso. apply N. apply (msg_sat _ _ _ _ early R Q); [apply m2p_early|exact I]. }
    1: { intros _. destruct Ho as [[Ho _]|[Ho|[[Ho _]|[[Ho _]|[[_ ->]|[[Ho _]|[[Ho|Ho] _]]]]]]]; try (rewrite Ho in P1; discriminate).
         unfold authenticated. destruct (fst r =? OK); cbn [app]; auto. }
    1: { intros N. destruct Ho as [[Ho _]|[Ho|[[Ho _]|[[Ho _]|[[Ho _]|[[_ ->]|[[Ho|Ho] _]]]]]]]; try (rewrite Ho in P1; discriminate).
         destruct (fst r =? OK) eqn:O; cbn [app]; [unfold authenticated; auto|]. exfalso. apply N. apply Z.eqb_neq in O.
         apply (msg_sat _ _ _ _ early R Q); [apply m3p_early|exact O]. }
    1-2: intros _; apply authenticated_full; eapply order_full; [exact Ho|rewrite P1; discriminate|rewrite P1; lia].
  - rewrite app_nil_r. destruct a; try discriminate; try contradiction.
    1: { destruct (deinit_run _ _ _ R) as [(_ & _ & ->)|(_ & _ & ->)]; [|exact Hi]. intro N. exfalso. apply N. split; discriminate. }
    1-8: destruct (fun X => cfg_keys _ _ _ _ X R) as (T & P & _); [reflexivity|]; unfold auth_inv, early in *; rewrite T, P; exact Hi.
    1: { destruct (export_th _ _ _ _ _ _ R) as (T & P & _). intro N. apply Hi. intros [N1 N2]. apply N. split; [now rewrite T|].
         intro X. apply P in X as [X|X]; contradiction. }
    1: { pose proof (sat_run _ _ _ _ _ _ _ (sat_no_out _ _ _ _ (export_key_update_post nn entropy w Hn)) R) as (_ & H1 & H2).
         destruct (Z.eq_dec (fst r) OK) as [O|O]; [destruct (H1 O) as (_ & X & _)|destruct (H2 O) as [(-> & _)|(X & _)]]; try exact Hi;
         intros _; apply authenticated_full; eapply order_full; [exact Ho|now apply aborted_low|exact X|exact Ho|now apply aborted_low|exact X]. }
    1: { cbn [do_api] in R. apply bind_inv in R as ([v o] & w1 & R1 & R). injection R as <- <-. 
         pose proof (sat_run _ _ _ _ _ _ _ (export_oscore_session_post nn n_sec n_salt n_sid n_rid w Hn) R1) as (_ & H1 & H2). cbn [fst] in *.
         destruct (Z.eq_dec v OK) as [O|O]; [destruct (H1 O) as (_ & _ & X & _)|destruct (H2 O) as [(-> & _)|(_ & X & _)]]; try exact Hi;
         intros _; apply authenticated_full; eapply order_full; [exact Ho|now apply aborted_low|exact X|exact Ho|now apply aborted_low|exact X]. }
    1-2: rewrite (fun X => query_same _ _ _ _ X R); [exact Hi|exact I].
Qed.
Lemma auth_runs : forall l w rs w' s, ~ In AInit l -> nonneg w -> order_inv (w_ctx w) s -> auth_inv (w_ctx w) s ->
  runs l w = Ret rs w' -> auth_inv (w_ctx w') (s ++ succeeded rs).
Proof.
  induction l as [|a l IH]; intros w rs w' s Ha Hn Ho Hi H.
  - apply runs_nil in H as [-> ->]. now rewrite app_nil_r.
  - apply runs_cons in H as (r & w1 & rs' & H1 & H2 & ->).
    change ((a, r) :: rs') with ([(a, r)] ++ rs'). rewrite succeeded_app, app_assoc.
    assert (a <> AInit) by (intro X; apply Ha; now left).
    apply (IH w1); auto.
    + intro X. apply Ha. now right.
    + eapply step_nonneg; eauto.
    + eapply order_step; eauto.
    + eapply auth_step; eauto.
Qed.
(** Splitting a history at one of its results. *)
Lemma runs_split : forall l w r1 x r2 w', runs l w = Ret (r1 ++ x :: r2) w' ->
  exists l1 l2 w1 w2, l = l1 ++ rcall x :: l2 /\ runs l1 w = Ret r1 w1 /\ do_api (rcall x) w1 = Ret (snd x) w2 /\ runs l2 w2 = Ret r2 w'.
Proof.
  induction l as [|a l IH]; intros w r1 x r2 w' R.
  - apply runs_nil in R as [R _]. destruct r1; discriminate.
  - apply runs_cons in R as (r & w1 & rs & R1 & R2 & Q). destruct r1 as [|y r1]; cbn [app] in Q; injection Q as -> Q.
    + subst rs. exists [], l, w, w1. repeat split; assumption.
    + subst rs. apply IH in R2 as (l1 & l2 & w2 & w3 & -> & A & B & C). exists (a :: l1), l2, w2, w3.
      split; [reflexivity|]. split; [|auto]. cbn [runs]. unfold bind. now rewrite R1, A.
Qed.
Lemma export_authenticated : forall w0 l rs w' r1 x r2, reachable w0 -> ~ In AInit l ->
  runs (AInit :: l) w0 = Ret rs w' -> rs = r1 ++ x :: r2 -> is_export (rcall x) = true -> rval x = OK ->
  authenticated (succeeded r1).
Proof.
  intros w0 l rs w' r1 x r2 Hw Ha R -> X O. apply runs_cons in R as (r & w1 & rs & R1 & R2 & Q).
  rewrite init_run in R1. injection R1 as <- <-. destruct r1 as [|y r1]; cbn [app] in Q; injection Q as -> Q.
  { discriminate. }
  subst rs. apply runs_split in R2 as (l1 & l2 & w2 & w3 & -> & A & B & C). change (succeeded ((AInit, (OK, ONone)) :: r1)) with ([] ++ succeeded r1).
  assert (HN : nonneg (Wd (set_is_init true ctx0) (w_tr w0))) by (apply (nonneg_wd (fun _ => set_is_init true ctx0) w0), (reachable_nonneg _ Hw)).
  assert (I2 : auth_inv (w_ctx w2) ([] ++ succeeded r1)).
  { eapply auth_runs; [|exact HN|left; split; [reflexivity|left; reflexivity]| |exact A].
    - intro Y. apply Ha. apply in_or_app. now left.
    - intro N. exfalso. apply N. split; discriminate. }
  apply I2. destruct (rcall x) eqn:RX; try discriminate. destruct (export_th _ _ _ _ _ _ B) as (T & P & K). intros [N1 N2].
  destruct (P (K O)); contradiction.
Qed.

(** ** After PRK_out was derived *)
Definition keyst (c : ctx) := (c_prk_state c, c_prk c, c_prk_len c, c_csuites c, c_csuite_idx c).
Lemma keyst_fields : forall c c', keyst c = keyst c' -> c_prk_state c = c_prk_state c' /\ prk_of c = prk_of c' /\ the_suite c = the_suite c'.
Proof. intros c c' H. unfold keyst in H. injection H as A B C D F. unfold prk_of, the_suite, csuite_at. now rewrite A, B, C, D, F. Qed.
Lemma export_out : forall nn l n w, c_prk_state (w_ctx w) = PRK_OUT ->
  sat Any (export_prk_exporter nn l n) w (fun _ w' => w_ctx w' = w_ctx w).
Proof.
  intros nn l n [c t] H. cs in H. eapply sat_conseq; [apply all_export|]. intros x w' (t' & _ & HH).
  destruct HH as [(_ & X)|[(_ & S & _)|[(S & _)|(_ & _ & X)]]]; [exact X| | |exact X]; rewrite H in S; discriminate.
Qed.
Lemma oscore_out : forall K nn a b d e, fst (fst (fst (fst K))) = PRK_OUT ->
  pr (fun c => keyst c = K) (export_oscore_session nn a b d e).
Proof.
  intros K nn a b d e HK. unfold export_oscore_session.
  assert (X : forall nn l n, pr (fun c => keyst c = K) (export_prk_exporter nn l n)).
  { intros nn' l n w H. eapply sat_conseq; [apply export_out; rewrite <- H in HK; exact HK|]. cbn beta. intros x w' ->. exact H. }
  repeat first [ apply X | pr_step ltac:(assumption) ].
Qed.
Lemma frozen_step : forall a w r w', rekeys a = false -> nonneg w -> do_api a w = Ret r w' ->
  c_prk_state (w_ctx w) = PRK_OUT -> keyst (w_ctx w') = keyst (w_ctx w).
Proof.
  intros a w r w' Ha Hn R H. destruct (kind a) as [k|] eqn:Hk.
  - destruct (msg_cases _ _ _ _ _ Hk Hn R) as [(-> & _)|(_ & P & _)]; [reflexivity|]. exfalso.
    unfold permitted in P. destruct k; injection P as _ _ P; rewrite H in P; discriminate.
  - destruct a; try discriminate.
    1-7: destruct (fun X => cfg_keys _ _ _ _ X R) as (_ & P1 & P2 & P3 & P4 & P5 & _); [reflexivity|];
         unfold keyst; rewrite P1, P2, P3, P4, (P5 eq_refl); reflexivity.
    + cbn [do_api] in R. unfold msg_out in R. apply bind_inv in R as ([v b] & w1 & R1 & R). injection R as _ <-.
      now rewrite (sat_run _ _ _ _ _ _ _ (export_out nn label n w H) R1).
    + cbn [do_api] in R. apply bind_inv in R as ([v o] & w1 & R1 & R). injection R as _ <-.
      exact (sat_run _ _ _ _ _ _ _ (oscore_out (keyst (w_ctx w)) nn n_sec n_salt n_sid n_rid H w eq_refl) R1).
    + now rewrite (fun X => query_same _ _ _ _ X R).
    + now rewrite (fun X => query_same _ _ _ _ X R).
Qed.
Lemma frozen_runs : forall l w rs w', Forall (fun a => rekeys a = false) l -> nonneg w -> runs l w = Ret rs w' ->
  c_prk_state (w_ctx w) = PRK_OUT -> keyst (w_ctx w') = keyst (w_ctx w).
Proof.
  induction l as [|a l IH]; intros w rs w' Ha Hn R H.
  - apply runs_nil in R as [_ ->]. reflexivity.
  - apply runs_cons in R as (r & w1 & rs' & R1 & R2 & _). inversion Ha; subst.
    pose proof (frozen_step _ _ _ _ ltac:(eassumption) Hn R1 H) as K1. rewrite <- K1. eapply IH; eauto.
    + eapply step_nonneg; eauto.
    + apply keyst_fields in K1 as (-> & _). exact H.
Qed.
Lemma runs_trace : forall l w rs w', nonneg w -> runs l w = Ret rs w' -> exists t, w_tr w' = t ++ w_tr w.
Proof.
  induction l as [|a l IH]; intros w rs w' Hn R.
  - apply runs_nil in R as [_ ->]. now exists [].
  - apply runs_cons in R as (r & w1 & rs' & R1 & R2 & _). destruct (step_live _ _ _ _ Hn R1) as [[t1 T1] _].
    destruct (IH w1 rs' w' (step_nonneg _ _ _ _ Hn R1) R2) as [t2 T2]. exists (t2 ++ t1). now rewrite T2, T1, app_assoc.
Qed.
Lemma export_step_value : forall nn label n s w w' f, do_api (AExport nn label n) w = Ret (OK, OBytes s) w' ->
  c_prk_state (w_ctx w') = PRK_OUT /\ exists t, w_tr w' = t ++ w_tr w /\
    (expand_fn f t -> s = secret_of f (cs_hash (the_suite (w_ctx w'))) (prk_of (w_ctx w')) label n).
Proof.
  intros nn label n s [c t] w' f R. cbn [do_api] in R. unfold msg_out in R. apply bind_inv in R as ([v b] & w1 & R1 & R). injection R as -> -> <-.
  destruct (sat_run _ _ _ _ _ _ _ (export_value nn label n c t) R1 eq_refl) as (A & t' & T & B). split; [exact A|]. exists t'. split; [exact T|]. apply B.
Qed.
Lemma trace_cancel : forall (e a b t : list event), e ++ t = a ++ b ++ t -> e = a ++ b.
Proof. intros e a b t H. rewrite app_assoc in H. now apply app_inv_tail in H. Qed.
Lemma export_repeatable : forall f l w r1 nn nn' label n s s' r2 r3 w' e, reachable w ->
  Forall (fun a => rekeys a = false) l ->
  runs l w = Ret (r1 ++ (AExport nn label n, (OK, OBytes s)) :: r2 ++ (AExport nn' label n, (OK, OBytes s')) :: r3) w' ->
  w_tr w' = e ++ w_tr w -> expand_fn f e -> s = s'.
Proof.
  intros f l w r1 nn nn' label n s s' r2 r3 w' e Hw Ha R T F. apply reachable_nonneg in Hw.
  apply runs_split in R as (l1 & l2 & w1 & w2 & -> & A & B & C). unfold rcall in *. cbn [fst snd] in *.
  apply runs_split in C as (l3 & l4 & w3 & w4 & -> & C & D & G). unfold rcall in *. cbn [fst snd] in *.
  destruct (runs_trace _ _ _ _ Hw A) as [t1 T1]. pose proof (runs_nonneg _ _ _ _ Hw A) as N1.
  destruct (export_step_value _ _ _ _ _ _ f B) as (O2 & t2 & T2 & V2). pose proof (step_nonneg _ _ _ _ N1 B) as N2.
  destruct (runs_trace _ _ _ _ N2 C) as [t3 T3]. pose proof (runs_nonneg _ _ _ _ N2 C) as N3.
  destruct (export_step_value _ _ _ _ _ _ f D) as (O4 & t4 & T4 & V4). pose proof (step_nonneg _ _ _ _ N3 D) as N4.
  destruct (runs_trace _ _ _ _ N4 G) as [t5 T5].
  rewrite T5, T4, T3, T2, T1, !app_assoc in T. apply app_inv_tail in T. subst e.
  apply expand_fn_app in F as [F _]. apply expand_fn_app in F as [F F2]. apply expand_fn_app in F as [F _]. apply expand_fn_app in F as [_ F4].
  rewrite (V2 F2), (V4 F4). apply Forall_app in Ha as [_ Ha]. inversion Ha as [|? ? _ Ha']; subst. apply Forall_app in Ha' as [Ha3 Ha4].
  inversion Ha4; subst.
  pose proof (frozen_runs _ _ _ _ Ha3 N2 C O2) as K3. apply keyst_fields in K3 as (P3 & Q3 & S3). rewrite O2 in P3.
  pose proof (frozen_step _ _ _ _ ltac:(eassumption) N3 D P3) as K4. apply keyst_fields in K4 as (_ & Q4 & S4).
  now rewrite Q4, S4, Q3, S3.
Qed.

(** ** Exports do not interfere *)
Definition po_of (f : bytes -> bytes -> Z -> bytes) (c : ctx) : bytes :=
  if c_prk_state c =? PRK_OUT then prk_of c
  else f (prk_of c) (enc_info L_PRK_OUT (th_of c) (u32 (cs_hash (the_suite c)))) (c_prk_len c).
Lemma expands_app : forall t t', expands_ok (t ++ t') -> expands_ok t /\ expands_ok t'.
Proof. intros t t' H. split; intros kid i n r o X; apply (H kid i n r o), in_or_app; auto. Qed.
Lemma export_po : forall nn label n w r w' f, do_api (AExport nn label n) w = Ret r w' ->
  exists t, w_tr w' = t ++ w_tr w /\ the_suite (w_ctx w') = the_suite (w_ctx w) /\
    (expand_fn f t -> expands_ok t -> po_of f (w_ctx w') = po_of f (w_ctx w)).
Proof.
  intros nn label n [c t] r w' f R. cbn [do_api] in R. unfold msg_out in R. apply bind_inv in R as ([v b] & w1 & R1 & R). injection R as _ <-.
  destruct (sat_run _ _ _ _ _ _ _ (all_export nn label n c t) R1) as (t' & T & H). exists t'. cs. split; [exact T|].
  destruct H as [(_ & ->)|[(_ & S & q & kid & i & m & r' & o & -> & I' & N)|[(S & S2 & o & -> & L & kid & W)|(S & S2 & ->)]]].
  - split; reflexivity.
  - split; [reflexivity|]. intros _ X. exfalso. apply N. eapply X. exact I'.
  - split; [reflexivity|]. intros F _. apply F in W as [W1 W2]. unfold po_of. rewrite S. cs. cbn [Z.eqb PRK_OUT PRK_4E3M].
    unfold prk_of at 1. cs. change (PRK_OUT =? PRK_OUT) with true. change (PRK_4E3M =? PRK_OUT) with false. cbn [negb].
    rewrite arr_read_blit by exact W2. exact W1.
  - split; reflexivity.
Qed.
Lemma exports_po : forall l w rs w' f, Forall (fun a => is_export a = true) l -> runs l w = Ret rs w' ->
  exists t, w_tr w' = t ++ w_tr w /\ the_suite (w_ctx w') = the_suite (w_ctx w) /\
    (expand_fn f t -> expands_ok t -> po_of f (w_ctx w') = po_of f (w_ctx w)).
Proof.
  induction l as [|a l IH]; intros w rs w' f Ha R.
  - apply runs_nil in R as [_ ->]. exists []. repeat split.
  - apply runs_cons in R as (r & w1 & rs' & R1 & R2 & _). inversion Ha; subst. destruct a; try discriminate.
    destruct (export_po _ _ _ _ _ _ f R1) as (t1 & T1 & S1 & P1). destruct (IH w1 rs' w' f ltac:(assumption) R2) as (t2 & T2 & S2 & P2).
    exists (t2 ++ t1). split; [now rewrite T2, T1, app_assoc|]. split; [congruence|]. intros F X.
    apply expand_fn_app in F as [F2 F1]. apply expands_app in X as [X2 X1]. rewrite P2, P1; auto.
Qed.
Lemma export_independent : forall f c t l rs nn label n s w e t' l' rs' nn' s' w' e',
  Forall (fun a => is_export a = true) l -> Forall (fun a => is_export a = true) l' ->
  runs (l ++ [AExport nn label n]) (Wd c t) = Ret (rs ++ [(AExport nn label n, (OK, OBytes s))]) w ->
  runs (l' ++ [AExport nn' label n]) (Wd c t') = Ret (rs' ++ [(AExport nn' label n, (OK, OBytes s'))]) w' ->
  w_tr w = e ++ t -> w_tr w' = e' ++ t' -> expand_fn f e -> expand_fn f e' -> expands_ok e -> expands_ok e' -> s = s'.
Proof.
  intros f c.
  assert (G : forall t l rs nn label n s w e, Forall (fun a => is_export a = true) l ->
    runs (l ++ [AExport nn label n]) (Wd c t) = Ret (rs ++ [(AExport nn label n, (OK, OBytes s))]) w ->
    w_tr w = e ++ t -> expand_fn f e -> expands_ok e -> s = secret_of f (cs_hash (the_suite c)) (po_of f c) label n).
  { intros t l rs nn label n s w e Ha R T F X. apply runs_app in R as (rs1 & w1 & rs2 & R1 & R2 & Q).
    apply runs_cons in R2 as (r & w2 & rs3 & R2 & R3 & ->). apply runs_nil in R3 as [-> ->]. apply app_inj_tail in Q as [_ Q]. injection Q as <-.
    destruct (exports_po _ _ _ _ f Ha R1) as (t1 & T1 & S1 & P1). destruct (export_po _ _ _ _ _ _ f R2) as (t2 & T2 & S2 & P2).
    destruct (export_step_value _ _ _ _ _ _ f R2) as (O2 & t2' & T2' & V2). rewrite T2 in T2'. apply app_inv_tail in T2'. subst t2'.
    rewrite T2, T1 in T. cs in T. rewrite app_assoc in T. apply app_inv_tail in T. subst e.
    apply expand_fn_app in F as [F2 F1]. apply expands_app in X as [X2 X1]. rewrite (V2 F2), S2, S1. cs. f_equal.
    specialize (P1 F1 X1). specialize (P2 F2 X2). unfold po_of at 1 in P2. rewrite O2 in P2. rewrite P1 in P2. exact P2. }
  intros. rewrite (G t l rs nn label n s w e), (G t' l' rs' nn' label n s' w' e'); auto.
Qed.
Lemma exports_frame : forall l w rs w', Forall (fun a => is_export a = true) l -> runs l w = Ret rs w' -> only_prk (w_ctx w) (w_ctx w').
Proof.
  induction l as [|a l IH]; intros w rs w' Ha R.
  - apply runs_nil in R as [_ ->]. apply only_prk_refl.
  - apply runs_cons in R as (r & w1 & rs' & R1 & R2 & _). inversion Ha; subst. destruct a; try discriminate.
    destruct (export_only_prk _ _ _ _ _ _ R1) as ((q & z & C1) & _). destruct (IH w1 rs' w' ltac:(assumption) R2) as (q' & z' & C2).
    exists q', z'. rewrite C2, C1. now destruct (w_ctx w).
Qed.

(** ** Message 4 after an export *)
Lemma out_step : forall a w r w', a <> AInit -> nonneg w -> do_api a w = Ret r w' ->
  c_prk_state (w_ctx w) = PRK_OUT \/ dead (w_ctx w) -> c_prk_state (w_ctx w') = PRK_OUT \/ dead (w_ctx w').
Proof.
  intros a w r w' Ha Hn R [H|H].
  2:{ right. eapply dead_step; eauto. }
  destruct (rekeys a) eqn:K.
  2:{ left. pose proof (frozen_step _ _ _ _ K Hn R H) as Q. apply keyst_fields in Q as (-> & _). exact H. }
  destruct a; try discriminate; try contradiction.
  - destruct (deinit_run _ _ _ R) as [(_ & _ & ->)|(_ & _ & ->)]; [|left; exact H]. right. right. repeat split.
  - left. destruct (fun X => cfg_keys _ _ _ _ X R) as (_ & P1 & _); [reflexivity|]. now rewrite P1.
  - left. cbn [do_api] in R. unfold no_out in R. apply bind_inv in R as (v & w1 & R1 & R). injection R as _ <-.
    assert (Q : pr (fun c => c_prk_state c = PRK_OUT) (export_key_update nn entropy)) by (pr_all ltac:(first [assumption|reflexivity])).
    exact (sat_run _ _ _ _ _ _ _ (Q w H) R1).
Qed.
Lemma out_blocks : forall a w r w', nonneg w -> do_api a w = Ret r w' -> c_prk_state (w_ctx w) = PRK_OUT \/ dead (w_ctx w) ->
  is_m4 a = true -> fst r <> OK.
Proof.
  intros a w r w' Hn R [H|H] M.
  - assert (K : exists k, kind a = Some k /\ (k = M4c \/ k = M4p)) by (destruct a; try discriminate; eexists; cbn [kind]; auto).
    destruct K as (k & K & Kk). destruct (msg_cases _ _ _ _ _ K Hn R) as [(-> & [[-> _]|[-> _]])|(_ & P & _)]; [discriminate|discriminate|].
    exfalso. unfold permitted in P. destruct Kk as [->| ->]; injection P as _ _ P; rewrite H in P; discriminate.
  - assert (A : a <> AInit) by (intros ->; discriminate). destruct (dead_step _ _ _ _ A Hn H R) as (_ & B & _). apply B.
    destruct a; discriminate.
Qed.
Lemma out_runs : forall l w rs w', ~ In AInit l -> nonneg w -> runs l w = Ret rs w' ->
  c_prk_state (w_ctx w) = PRK_OUT \/ dead (w_ctx w) -> Forall (fun r => is_m4 (rcall r) = true -> rval r <> OK) rs.
Proof.
  induction l as [|a l IH]; intros w rs w' Ha Hn R H.
  - apply runs_nil in R as [-> _]. constructor.
  - apply runs_cons in R as (r & w1 & rs' & R1 & R2 & ->). assert (a <> AInit) by (intro X; apply Ha; now left). constructor.
    + unfold rcall, rval. cbn [fst snd]. now apply (out_blocks a w r w1).
    + eapply (IH w1); [|eapply step_nonneg; eauto|exact R2|eapply out_step; eauto]. intro X. apply Ha. now right.
Qed.
Lemma oscore_out_state : forall nn a b d e w r w', do_api (AOscore nn a b d e) w = Ret r w' -> fst r = OK -> c_prk_state (w_ctx w') = PRK_OUT.
Proof.
  intros nn a b d e w r w' R O. cbn [do_api] in R. apply bind_inv in R as ([v o] & w1 & R1 & R). injection R as <- <-. cbn [fst] in O. subst v.
  assert (Q : sat Any (export_oscore_session nn a b d e) w (fun x w' => fst x = OK -> c_prk_state (w_ctx w') = PRK_OUT)).
  { assert (X : forall nn l n w, sat Any (export_prk_exporter nn l n) w (fun x w' => fst x = OK -> c_prk_state (w_ctx w') = PRK_OUT)).
    { intros nn' l n [c t]. eapply sat_conseq; [apply export_value|]. intros x w2 HH O. apply HH, O. }
    unfold export_oscore_session. do 8 sy. eapply sat_conseq; [apply X|]. intros [r1 s1] w1' H1. cbn [fst] in H1.
    destruct (r1 =? OK); cbn [negb]; [|deadend]. sy. eapply sat_conseq; [apply X|]. intros [r2 s2] w2' H2. cbn [fst] in H2.
    destruct (r2 =? OK) eqn:E2; cbn [negb]; [|deadend]. apply Z.eqb_eq in E2. specialize (H2 E2).
    destruct (oscore_id _ _) as [r3 i3]. destruct (r3 =? OK) eqn:E3; cbn [negb]; [|apply sat_ret; cbn [fst]; intro; subst; discriminate].
    destruct (oscore_id _ _) as [r4 i4]. destruct (r4 =? OK) eqn:E4; cbn [negb]; [|apply sat_ret; cbn [fst]; intro; subst; discriminate].
    sy. apply sat_ret. cs. intros _. exact H2. }
  exact (sat_run _ _ _ _ _ _ _ Q R1 eq_refl).
Qed.
Lemma export_blocks_m4 : forall w a r w1 l rs w', reachable w -> is_export a = true \/ is_oscore a = true ->
  do_api a w = Ret r w1 -> fst r = OK -> ~ In AInit l -> runs l w1 = Ret rs w' ->
  Forall (fun r => is_m4 (rcall r) = true -> rval r <> OK) rs.
Proof.
  intros w a r w1 l rs w' Hw Ha R O Hl R'. apply reachable_nonneg in Hw. apply (out_runs l w1 rs w'); auto.
  - eapply step_nonneg; eauto.
  - left. destruct Ha as [Ha|Ha]; destruct a; try discriminate; [eapply export_th; eauto|eapply oscore_out_state; eauto].
Qed.
(** Calls that neither export nor handshake keep message 4 possible. *)
Lemma m4_kept : forall a w r w' k, is_config a = true \/ match a with AErrCode _ | AErrSuites _ _ _ => True | _ => False end ->
  do_api a w = Ret r w' -> k = M4c \/ k = M4p -> permitted k (w_ctx w) -> permitted k (w_ctx w').
Proof.
  intros a w r w' k [Ha|Ha] R K P.
  - destruct (cfg_keys _ _ _ _ Ha R) as (A & B & _ & _ & _ & _ & C & _). unfold permitted in *. now rewrite A, B, C.
  - now rewrite (query_same _ _ _ _ Ha R).
Qed.

(** ** Failing exports *)
Lemma key_update_failed : forall nn en w r w', reachable w -> do_api (AKeyUpdate nn en) w = Ret r w' -> fst r <> OK ->
  w' = w \/ c_status (w_ctx w') = SM_ABORTED.
Proof.
  intros nn en w r w' Hw R N. apply reachable_nonneg in Hw.
  pose proof (sat_run _ _ _ _ _ _ _ (sat_no_out _ _ _ _ (export_key_update_post nn en w Hw)) R) as (_ & _ & H).
  destruct (H N) as [(-> & _)|(_ & K)]; [now left|]. right. apply kept_fields in K as (_ & _ & _ & K & _). exact K.
Qed.
Lemma oscore_failed_keys : forall nn a b d e w r w', reachable w -> do_api (AOscore nn a b d e) w = Ret r w' -> fst r <> OK ->
  w' = w \/ c_status (w_ctx w') = SM_ABORTED.
Proof.
  intros nn a b d e w r w' Hw R N. apply reachable_nonneg in Hw. cbn [do_api] in R. apply bind_inv in R as ([v o] & w1 & R1 & R). injection R as <- <-.
  pose proof (sat_run _ _ _ _ _ _ _ (export_oscore_session_post nn a b d e w Hw) R1) as (_ & _ & H). cbn [fst] in *.
  destruct (H N) as [(-> & _)|(_ & _ & K)]; [now left|]. right. apply kept_fields in K as (_ & _ & _ & K & _). exact K.
Qed.
Lemma export_failed_keys : forall nn label n w r w', do_api (AExport nn label n) w = Ret r w' ->
  0 <= cs_hash (the_suite (w_ctx w)) < 2 ^ 32 -> c_prk_len (w_ctx w) = cs_hash (the_suite (w_ctx w)) ->
  exists e, w_tr w' = e ++ w_tr w /\ only_prk (w_ctx w) (w_ctx w') /\
    (w_ctx w' = w_ctx w \/ fst r <> OK /\ ~ expands_ok e \/
     c_prk_state (w_ctx w') = PRK_OUT /\ (full e -> prk_out_of (w_ctx w) e (prk_of (w_ctx w')))).
Proof.
  intros nn label n w r w' R S L. destruct (export_only_prk _ _ _ _ _ _ R) as (OP & _). destruct w as [c t]. cbn [do_api] in R. unfold msg_out in R.
  apply bind_inv in R as ([v b] & w1 & R1 & R). injection R as <- <-.
  destruct (sat_run _ _ _ _ _ _ _ (all_export nn label n c t) R1) as (t' & T & H). exists t'. cs. cs in S. cs in L. cs in OP. cbn [fst] in *. split; [exact T|]. split; [exact OP|].
  destruct H as [(_ & ->)|[(N & S1 & q & kid & i & m & r' & o & -> & I' & N')|[(S1 & S2 & o & -> & Lo & kid & W)|(S1 & S2 & ->)]]].
  - now left.
  - right. left. split; [exact N|]. intro X. apply N'. eapply X. exact I'.
  - right. right. cs. split; [reflexivity|]. intros [_ F]. unfold prk_out_of. rewrite S1. change (PRK_4E3M =? PRK_OUT) with false. cbn iota.
    split; [reflexivity|]. split; [exact S2|]. unfold prk_of at 2. cs. rewrite L in *. rewrite u32_id in W by exact S. rewrite enc_info_rfc in W.
    assert (Z1 : zlen o = cs_hash (the_suite c)). { destruct W as (a1 & a2 & -> & _). eapply F. apply in_elt. }
    rewrite arr_read_blit by exact Z1. exists kid, o. split; [exact W|]. split; [exact Lo|]. symmetry. apply arr_read_exact. exact Z1.
  - now left.
Qed.

(** ** Long exports *)
Lemma export_needs_room : forall nn label n c t,
  sat Any (export_prk_exporter nn label n) (Wd c t) (fun x w' => fst x = OK ->
    public_label label /\
    fits (int_mem_req label + bstr_oh 0 + int_mem_req (i32 (cs_hash (the_suite c)))) (enc_info label [] (u32 n)) <> None).
Proof.
  intros nn label n c t. unfold export_prk_exporter. sy. destruct (label_allowed label) eqn:LA; cbn [negb]; [|deadend].
  apply label_allowed_iff in LA. do 5 sy. cs. sy.
  apply sat_conseq with (P := fun _ _ => True). { unfold sat. now destruct ((if c_prk_state c =? PRK_4E3M then compute_prk_out else ret OK) _). }
  intros r1 w1 _. destruct w1 as [c1 t1]. sy. sy. sy. sy. sy. apply sat_conseq with (P := fun _ _ => True). { unfold sat. now destruct (compute_prk_exporter _ _). }
  intros [r2 pe] w2 _. destruct w2 as [c2 t2]. destruct (r2 =? OK); cbn [negb]; [|deadend]. cbv zeta.
  destruct (fits _ _) eqn:FF.
  2:{ apply sat_bind, sy_alloc. intros ok1. cs. destruct ok1; cbn [negb]; deadend. }
  unfold sat. match goal with |- match ?x with _ => _ end => destruct x as [[? ?] ?|]; [|exact I] end. intros _.
  split; [exact LA|discriminate].
Qed.
Lemma zlen_num : forall v, 0 <= v -> zlen (enc_int v) = zlen (cbor (Num v)).
Proof. intros. now rewrite enc_int_rfc. Qed.
Lemma i32_id : forall v, 0 <= v <= 65535 -> i32 v = v.
Proof. intros v H. unfold i32. rewrite Z.mod_small by lia. cbv zeta. destruct (Z.ltb_spec v (2 ^ 31)); lia. Qed.
Lemma room_iff : forall label h n, public_label label -> 0 <= h <= 65535 -> 0 <= n < 2 ^ 32 ->
  (fits (int_mem_req label + bstr_oh 0 + int_mem_req (i32 h)) (enc_info label [] (u32 n)) <> None <->
   zlen (cbor (Num n)) <= zlen (cbor (Num h))).
Proof.
  intros label h n L H N. rewrite u32_id, i32_id by assumption. unfold fits, enc_info. rewrite !zlen_app, !enc_int_rfc.
  assert (LB : -65536 <= label <= 65535) by (destruct L as [->|[->|L]]; lia).
  rewrite (int_size_exact label), (int_size_exact h) by lia. change (zlen (enc_bstr [])) with 1. change (bstr_oh 0) with 1.
  destruct (_ <=? _) eqn:X; [apply Z.leb_le in X|apply Z.leb_gt in X]; split; intro Y; try congruence; lia.
Qed.
Lemma export_length_limit : forall nn label n w r w', do_api (AExport nn label n) w = Ret r w' -> fst r = OK ->
  0 <= cs_hash (the_suite (w_ctx w)) <= 65535 -> 0 <= n < 2 ^ 32 ->
  zlen (cbor (Num n)) <= zlen (cbor (Num (cs_hash (the_suite (w_ctx w))))).
Proof.
  intros nn label n [c t] r w' R O H N. cbn [do_api] in R. unfold msg_out in R. apply bind_inv in R as ([v b] & w1 & R1 & R). injection R as <- <-.
  destruct (sat_run _ _ _ _ _ _ _ (export_needs_room nn label n c t) R1 O) as (L & F). now apply (room_iff label) in F.
Qed.

(** ** Exports succeed when the callbacks do *)
Ltac isin := first [ left; reflexivity | right; isin ].
Ltac bad := eexists; split; [trx|];
  let A := fresh "A" in let B := fresh "B" in let C := fresh "C" in intros _ (A & B & C);
  first [ eapply A; isin
        | match goal with X : (?r =? OK) = false |- _ => apply Z.eqb_neq in X; apply X; first [eapply B; isin | eapply C; isin] end ].
Lemma into_prk_works : forall len label context c t cx, reads context c cx ->
  fits len (enc_info label cx (u32 (cs_hash (the_suite c)))) <> None ->
  sat Any (kdf_into_prk len label context) (Wd c t) (fun r w' => exists e, w_tr w' = e ++ t /\ (r <> OK -> ~ helpful e)).
Proof.
  intros len label context c t cx Hc HF. unfold kdf_into_prk. apply sat_bind, sy_get_suite. intros _. cbv beta.
  apply sat_bind, sy_alloc. intros ok. cs. destruct ok; cbn [negb]; [|apply sat_ret; cs; bad].
  apply sat_bind. eapply sat_conseq; [apply Hc|]. intros y w [-> ->]. cbv beta.
  destruct (fits len _) as [inf|]; [|contradiction]. apply sat_bind, sy_get_prk. intros _. cs. apply sat_bind, sy_import. intros r kid. cs.
  destruct (r =? OK) eqn:Er; cbn [negb]; [|apply sat_bind, sy_free, sat_ret; cs; bad].
  apply sat_bind, sat_getc. cs. apply sat_bind, sy_expand. intros r2 out Lo. cs. apply sat_bind, sy_put_prk. intros _. cs.
  apply sat_bind, sy_destroy. intros r3. cs. apply sat_bind, sy_free. cs.
  destruct (r2 =? OK) eqn:Er2; cbn [negb]; [|apply sat_ret; cs; bad].
  apply sat_bind, sat_modify. cs. apply sat_ret. cs. eexists. split; [trx|]. congruence.
Qed.
Lemma kdf_works : forall len label context prk n c t cx k, reads context c cx -> reads prk c k ->
  fits len (enc_info label cx (u32 n)) <> None ->
  sat Any (kdf false len label context prk n) (Wd c t) (fun x w' => exists e, w_tr w' = e ++ t /\ (fst x <> OK -> ~ helpful e)).
Proof.
  intros len label context prk n c t cx k Hc Hk HF. unfold kdf.
  apply sat_bind, sy_alloc. intros ok. cs. destruct ok; cbn [negb]; [|apply sat_ret; cs; bad].
  apply sat_bind. eapply sat_conseq; [apply Hc|]. intros y w [-> ->]. cbv beta. cbn [andb].
  destruct (fits len _) as [inf|]; [|contradiction]. apply sat_bind. eapply sat_conseq; [apply Hk|]. intros y w [-> ->]. cbv beta.
  apply sat_bind, sy_import. intros r kid. cs.
  destruct (r =? OK) eqn:Er; cbn [negb]; [|apply sat_bind, sy_free, sat_ret; cs; bad].
  apply sat_bind, sy_expand. intros r2 out Lo. cs.
  apply sat_bind, sy_destroy. intros r3. cs. apply sat_bind, sy_free. cs.
  destruct (r2 =? OK) eqn:Er2; cbn [negb]; [|apply sat_ret; cs; bad].
  apply sat_ret. cs. eexists. split; [trx|]. congruence.
Qed.
Lemma helpful_app : forall t t', helpful (t ++ t') -> helpful t /\ helpful t'.
Proof.
  intros t t' (A & B & C). split; (split; [|split]).
  - intros b n X. apply (A b n), in_or_app. now left.
  - intros kt k r kid X. apply (B kt k r kid), in_or_app. now left.
  - intros kid i n r o X. apply (C kid i n r o), in_or_app. now left.
  - intros b n X. apply (A b n), in_or_app. now right.
  - intros kt k r kid X. apply (B kt k r kid), in_or_app. now right.
  - intros kid i n r o X. apply (C kid i n r o), in_or_app. now right.
Qed.
Lemma room_th : forall label th tl h, label = L_PRK_OUT -> 0 <= h <= 65535 -> 0 <= tl <= 65535 -> zlen th = tl ->
  fits (int_mem_req L_IV_3 + (tl + bstr_oh tl) + int_mem_req (i32 h)) (enc_info label th (u32 h)) <> None.
Proof.
  intros label th tl h -> H L <-. rewrite u32_id, i32_id by lia. unfold fits, enc_info. rewrite !zlen_app, !enc_int_rfc.
  rewrite (int_size_exact h) by lia. change (zlen (cbor (Num L_PRK_OUT))) with 1. change (int_mem_req L_IV_3) with 1.
  assert (B : zlen (enc_bstr th) <= zlen th + bstr_oh (zlen th)).
  { unfold enc_bstr, enc_head, bstr_oh. rewrite zlen_app. 
    destruct (zlen th <? 24) eqn:X1; [apply Z.ltb_lt in X1; replace (zlen th <=? 23) with true by lia; unfold zlen at 1; cbn [length]; lia|].
    destruct (zlen th <? 256) eqn:X2; [apply Z.ltb_lt in X2; apply Z.ltb_ge in X1; replace (zlen th <=? 23) with false by lia; replace (zlen th <=? 255) with true by lia; unfold zlen at 1; cbn [length]; lia|].
    destruct (zlen th <? 65536) eqn:X3; [|apply Z.ltb_ge in X3; lia]. apply Z.ltb_lt in X3; apply Z.ltb_ge in X1, X2.
    replace (zlen th <=? 23) with false by lia. replace (zlen th <=? 255) with false by lia. replace (zlen th <=? 65535) with true by lia.
    rewrite zlen_cons, zlen_be. lia. }
  destruct (_ <=? _) eqn:X; [discriminate|]. apply Z.leb_gt in X. lia.
Qed.
Lemma export_works : forall label n c t, public_label label -> 1 <= n < 2 ^ 32 -> 0 <= cs_hash (the_suite c) <= 65535 ->
  0 <= c_th_len c <= 65535 ->
  zlen (cbor (Num n)) <= zlen (cbor (Num (cs_hash (the_suite c)))) ->
  c_status c <= SM_PERSISTED -> c_prk_state c = PRK_OUT \/ c_prk_state c = PRK_4E3M /\ c_th_state c = TH_4 ->
  sat Any (export_prk_exporter true label n) (Wd c t) (fun x w' => exists e, w_tr w' = e ++ t /\ (fst x <> OK -> ~ helpful e)).
Proof.
  intros label n c t L N H TL Z0 S P. unfold export_prk_exporter. cbn [negb orb].
  assert (A1 : (65535 <? label) = false) by (apply Z.ltb_ge; destruct L as [->|[->|L]]; lia).
  assert (A2 : (n =? 0) = false) by (apply Z.eqb_neq; lia). rewrite A1, A2. cbn [orb].
  assert (A3 : label_allowed label = true) by now apply label_allowed_iff. rewrite A3. cbn [negb].
  apply sat_bind, sat_getc. cs.
  assert (A4 : (SM_PERSISTED <? c_status c) = false) by (apply Z.ltb_ge; exact S).
  assert (A5 : (c_prk_state c <? PRK_4E3M) = false) by (destruct P as [->|[-> _]]; reflexivity). rewrite A4, A5. cbn [orb].
  apply sat_bind, sy_get_suite. intros _. cs. apply sat_bind.
  apply sat_conseq with (P := fun r w' => exists e, w_tr w' = e ++ t /\ the_suite (w_ctx w') = the_suite c /\ (r = OK -> c_prk_state (w_ctx w') = PRK_OUT) /\ (r <> OK -> ~ helpful e)).
  { destruct P as [P|[P T]].
    - rewrite P. change (PRK_OUT =? PRK_4E3M) with false. cbn iota. apply sat_ret. exists []. cs. repeat split; congruence.
    - rewrite P. change (PRK_4E3M =? PRK_4E3M) with true. cbn iota.
      pose proof (all_prk_out c t) as Q1.
      assert (Q2 : sat Any compute_prk_out (Wd c t) (fun r w' => exists e, w_tr w' = e ++ t /\ (r <> OK -> ~ helpful e))).
      { unfold compute_prk_out. apply sat_bind, sat_getc. cs. rewrite T, P. cbn [negb orb Z.eqb]. change (TH_4 =? TH_4) with true.
        change (PRK_4E3M =? PRK_4E3M) with true. cbn [negb orb]. apply sat_bind, sy_get_suite. intros _. cs.
        apply (into_prk_works _ _ _ _ _ (th_of c)); [apply reads_th|]. apply room_th; auto. unfold th_of. apply zlen_arr_read. lia. }
      unfold sat in *. destruct (compute_prk_out (Wd c t)) as [r w'|u]; [|exact I]. destruct Q1 as (e1 & T1 & Q1), Q2 as (e2 & T2 & Q2).
      exists e2. split; [exact T2|]. split; [|split; [|exact Q2]].
      + destruct Q1 as [[_ ->]|[(_ & q & ? & ? & ? & ? & ? & -> & _)|(_ & _ & o & -> & _)]]; reflexivity.
      + intros ->. destruct Q1 as [[X _]|[[X _]|(_ & _ & o & -> & _)]]; [contradiction|contradiction|reflexivity]. }
  intros r w (e1 & T1 & S1 & O1 & X1). destruct w as [c1 t1]. cs in T1. cs in S1. cs in O1. subst t1.
  destruct (r =? OK) eqn:Er; cbn [negb].
  2:{ apply sat_ret. cs. exists e1. split; [reflexivity|]. intros _. apply X1. now apply Z.eqb_neq. }
  apply Z.eqb_eq in Er. specialize (O1 Er). apply sat_bind, sy_alloc. intros ok. cs. destruct ok; cbn [negb].
  2:{ apply sat_ret. cs. eexists (_ :: e1). split; [reflexivity|]. intros _ (A & _). eapply A. left. reflexivity. }
  apply sat_bind. eapply sat_conseq.
  { unfold compute_prk_exporter. apply sat_bind, sat_getc. cs. rewrite O1. change (PRK_OUT =? PRK_OUT) with true. cbn [negb].
    apply sat_bind, sy_get_suite. intros _. cs. apply (kdf_works _ _ _ _ _ _ _ [] (prk_of c1)); [apply reads_ret|apply reads_prk|].
    rewrite S1. rewrite u32_id, i32_id by lia. unfold fits, enc_info. rewrite !zlen_app, !enc_int_rfc. rewrite (int_size_exact (cs_hash (the_suite c))) by lia.
    change (zlen (cbor (Num L_PRK_EXPORTER))) with 1. change (int_mem_req L_PRK_EXPORTER) with 1. change (zlen (enc_bstr [])) with 1. change (bstr_oh 0) with 1.
    destruct (_ <=? _) eqn:X; [discriminate|]. apply Z.leb_gt in X. lia. }
  cbv beta. intros [r2 pe] w2 (e2 & T2 & X2). destruct w2 as [c2 t2]. cs in T2. cbn [fst] in X2. subst t2. destruct (r2 =? OK) eqn:Er2; cbn [negb].
  2:{ apply sat_bind, sy_free, sat_ret. cs. eexists (_ :: e2 ++ _ :: e1). split; [cbn [app]; now rewrite <- app_assoc|]. intros _ HH. apply X2; [now apply Z.eqb_neq|].
      change (?a :: ?l) with ([a] ++ l) in HH at 1. apply helpful_app in HH as [_ HH]. now apply helpful_app in HH as [HH _]. }
  cbv zeta. pose proof (proj2 (room_iff label (cs_hash (the_suite c)) n L H ltac:(lia)) Z0) as HF.
  apply sat_bind, sy_alloc. intros ok. cs. destruct ok; cbn [negb].
  2:{ apply sat_bind, sy_free, sat_ret. cs. eexists (_ :: _ :: e2 ++ _ :: e1). split; [cbn [app]; now rewrite <- app_assoc|].
      intros _ (A & _). eapply A. right. left. reflexivity. }
  destruct (fits _ _) as [inf|]; [|contradiction]. apply sat_bind, sy_import. intros r3 kid. cs. destruct (r3 =? OK) eqn:Er3; cbn [negb].
  2:{ apply sat_bind, sy_free, sat_bind, sy_free, sat_ret. cs. eexists (_ :: _ :: _ :: _ :: e2 ++ _ :: e1). split; [cbn [app]; now rewrite <- app_assoc|].
      intros _ (_ & A & _). apply Z.eqb_neq in Er3. apply Er3. eapply A. right. right. left. reflexivity. }
  apply sat_bind, sy_free. cs. apply sat_bind, sy_expand. intros r4 out Lo. cs. apply sat_bind, sy_destroy. intros r5. cs. apply sat_bind, sy_free. cs.
  destruct (r4 =? OK) eqn:Er4; cbn [negb]; apply sat_ret; cs; (eexists (_ :: _ :: _ :: _ :: _ :: _ :: e2 ++ _ :: e1); split; [cbn [app]; now rewrite <- app_assoc|]).
  - congruence.
  - intros _ (_ & _ & A). apply Z.eqb_neq in Er4. apply Er4. eapply A. right. right. left. reflexivity.
Qed.
Lemma export_succeeds : forall label n w r w' e, do_api (AExport true label n) w = Ret r w' ->
  public_label label -> 1 <= n < 2 ^ 32 -> 0 <= cs_hash (the_suite (w_ctx w)) <= 65535 -> 0 <= c_th_len (w_ctx w) <= 65535 ->
  zlen (cbor (Num n)) <= zlen (cbor (Num (cs_hash (the_suite (w_ctx w))))) ->
  c_status (w_ctx w) <= SM_PERSISTED ->
  c_prk_state (w_ctx w) = PRK_OUT \/ c_prk_state (w_ctx w) = PRK_4E3M /\ c_th_state (w_ctx w) = TH_4 ->
  w_tr w' = e ++ w_tr w -> helpful e -> fst r = OK.
Proof.
  intros label n [c t] r w' e R L N H TL Z0 S P T HE. cbn [do_api] in R. unfold msg_out in R. apply bind_inv in R as ([v b] & w1 & R1 & R). injection R as <- <-.
  destruct (sat_run _ _ _ _ _ _ _ (export_works label n c t L N H TL Z0 S P) R1) as (e' & T' & X). cs in T. rewrite T in T'. apply app_inv_tail in T'. subst e'.
  cbn [fst] in *. destruct (Z.eq_dec v OK) as [Y|Y]; [exact Y|]. exfalso. now apply X.
Qed.
Lemma export_short_succeeds : forall label n w r w' e, do_api (AExport true label n) w = Ret r w' ->
  public_label label -> 1 <= n <= 255 -> 24 <= cs_hash (the_suite (w_ctx w)) <= 65535 -> 0 <= c_th_len (w_ctx w) <= 65535 ->
  c_status (w_ctx w) <= SM_PERSISTED ->
  c_prk_state (w_ctx w) = PRK_OUT \/ c_prk_state (w_ctx w) = PRK_4E3M /\ c_th_state (w_ctx w) = TH_4 ->
  w_tr w' = e ++ w_tr w -> helpful e -> fst r = OK.
Proof.
  intros label n w r w' e R L N H TL S P T HE. apply (export_succeeds label n w r w' e R L); auto; try lia.
  rewrite <- !int_size_exact by lia. unfold int_mem_req. set (h := cs_hash (the_suite (w_ctx w))) in *. clearbody h.
  repeat match goal with |- context [if ?b then _ else _] => destruct b eqn:? end; lia.
Qed.
End Export.
