(** The demonstration parties are in use.  No code of /repo is modelled here. *)
From Verif Require Import Monad Api Common Msg1 Msg2 Msg3 Msg4 Exporter History Spec InUse Rfc Uses Conform Sessions
  HistoryProofs Demo DemoX.

Section InUse.
Context {E : env}.
Lemma blank_trace : forall c, reachable (Wd c []).
Proof. intro c. exists c, [], []. reflexivity. Qed.
Lemma config_trace : forall a w r w', is_config a = true -> do_api a w = Ret r w' -> w_tr w' = w_tr w.
Proof. intros a w r w' C H. destruct a; try discriminate C; cbn [do_api] in H; rewrite cfg_run in H; injection H as _ <-; reflexivity. Qed.
Lemma configured_in_use : forall c, configured c -> in_use c.
Proof.
  intros c (c0 & l & rs & t & F & H). apply runs_cons in H as (r & [c1 t1] & rs' & H1 & H2 & _).
  assert (U : in_use c1) by exact (used_init _ _ _ _ _ H1).
  assert (T : t1 = []) by (rewrite init_run in H1; now injection H1 as _ _ <-). subst t1. clear H1. revert c1 rs' U H2.
  induction F as [|a l Ha F IH]; intros c1 rs' U H2.
  - apply runs_nil in H2 as [_ H2]. now injection H2 as -> _.
  - apply runs_cons in H2 as (r' & [c2 t2] & rs2 & H3 & H4 & _). pose proof (config_trace _ _ _ _ Ha H3) as T. cbn in T. subst t2.
    exact (IH _ _ (used_call _ c1 [] a r' c2 [] U (blank_trace c1) H3) H4).
Qed.
Variables si sr : list api.
Lemma trips_in_use : config_only si = true -> config_only sr = true ->
  returns (runs si blank) = true -> returns (runs sr blank) = true -> pt_good (trips si sr) = true ->
  in_use (s1 (pt_i (trips si sr))) /\ in_use (s2 (pt_r (trips si sr))).
Proof.
  intros C1 C2 R1 R2. pose proof (configured_in_use _ (start_configured _ C1 R1)) as UI. pose proof (configured_in_use _ (start_configured _ C2 R2)) as UR.
  unfold trips. cbv zeta.
  destruct (run_m (message_1_compose true 400) _ _) as [[r1 m1] [a1 e1]] eqn:X1.
  destruct (run_m (message_1_process true m1) _ _) as [q1 [b1 f1]] eqn:Y1.
  destruct (run_m (message_2_compose true 400) _ _) as [[q2 m2] [b2 f2]] eqn:Y2.
  destruct (run_m (message_2_process true m2) _ _) as [r2 [a2 e2]] eqn:X2.
  destruct (run_m (message_3_compose true 400) _ _) as [[r3 m3] [a3 e3]] eqn:X3.
  destruct (run_m (message_3_process true m3) _ _) as [q3 [b3 f3]] eqn:Y3.
  cbn [pt_good pt_i pt_r pt_m1 pt_m2 pt_m3 s1 s2]. intro G. repeat (apply andb_true_iff in G as [G ?]).
  repeat match goal with H : (_ =? OK) = true |- _ => apply Z.eqb_eq in H; subst end.
  apply run_m_inv in X1, Y1, Y2; try discriminate. split.
  - apply (used_call _ (start_of si) [] (AM1Compose true 400) (OK, OBytes m1) a1 (e1 ++ []) UI (blank_trace _)). cbn [do_api]. unfold msg_out, bind. now rewrite X1.
  - assert (U1 : in_use b1).
    { apply (used_call _ (start_of sr) [] (AM1Process true m1) (OK, ONone) b1 (f1 ++ []) UR (blank_trace _)). cbn [do_api]. unfold no_out, bind. now rewrite Y1. }
    apply (used_call _ b1 [] (AM2Compose true 400) (OK, OBytes m2) b2 (f2 ++ []) U1 (blank_trace _)). cbn [do_api]. unfold msg_out, bind. now rewrite Y2.
Qed.
End InUse.
Lemma all_good : forall x p sk, all_of x p sk = true -> pt_good x = true.
Proof. intros x p sk H. unfold all_of in H. cbv zeta in H. do 16 (apply andb_true_iff in H as [H _]). exact H. Qed.
Lemma ok_in_use : forall E si sr, ok_of E si sr (all_of (@trips E si sr) toy sk_demo) = true ->
  @in_use E (s1 (pt_i (@trips E si sr))) /\ @in_use E (s2 (pt_r (@trips E si sr))).
Proof.
  intros E si sr H. unfold ok_of in H. repeat (apply andb_true_iff in H as [H ?]). apply trips_in_use; auto.
  match goal with Q : all_of _ _ _ = true |- _ => exact (all_good _ _ _ Q) end.
Qed.
Lemma demo_ok_in_use : forall k m, demo_ok k m = true ->
  @in_use (demo_env k) (s1 (pt_i (demo_trips k m))) /\ @in_use (demo_env k) (s2 (pt_r (demo_trips k m))).
Proof. intros k m. unfold demo_ok, demo_trips. exact (ok_in_use (demo_env k) (setup_ead 1 m) (setup_ead 2 m)). Qed.
Lemma demo_in_use : forall m, In m [0; 1; 2; 3] ->
  @in_use (demo_env knobs_kid) (s1 (pt_i (demo_trips knobs_kid m))) /\ @in_use (demo_env knobs_kid) (s2 (pt_r (demo_trips knobs_kid m))).
Proof.
  intros m M. apply demo_ok_in_use. exact (demo_runs_kid m M).
Qed.
