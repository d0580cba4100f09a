(** What each message and export call does to status, error code, configuration, buffers and
    key handles, on every path. *)
From Verif Require Import Monad Common Msg1 Msg2 Msg3 Msg4 Exporter Spec Logic Frame.

Definition kept_cong (f : ctx -> ctx) : Prop := forall c c', kept c = kept c' -> kept (f c) = kept (f c').
Lemma sat_mod : forall f ks d w0 w (Q : unit -> world -> Prop),
  st ks d w0 w -> kept_cong f ->
  (st ks d (Wd (f (w_ctx w0)) (w_tr w0)) (Wd (f (w_ctx w)) (w_tr w)) ->
   Q tt (Wd (f (w_ctx w)) (w_tr w))) -> sat nofree (modify f) w Q.
Proof.
  intros f ks d w0 w Q [A B C D] Hf HQ. apply sat_modify. apply HQ. split; cbn [w_ctx w_tr]; auto.
Qed.
Lemma nonneg_wd : forall f w, nonneg w -> nonneg (Wd (f (w_ctx w)) (w_tr w)).
Proof. intros f w H b. exact (H b). Qed.

(** The state a message call leaves: status, message, role, error code. *)
Definition after (msg role status err : Z) (c : ctx) : ctx :=
  set_role role (set_message msg (set_error err (set_status status c))).

(** [sel c c1]: how the call may first have changed the negotiated parameters. *)
Definition sel_id (c c1 : ctx) : Prop := c1 = c.
Definition sel_neg (c c1 : ctx) : Prop :=
  exists i m, c1 = set_csuite_idx i (set_chosen_method m c).

Record callpost (msg role next : Z) (fin : ctx -> ctx) (sel : ctx -> ctx -> Prop)
                (errs : list Z) (w : world) (r : Z) (w' : world) : Prop := CP {
  cp_ext : exists t, w_tr w' = t ++ w_tr w;
  cp_live : forall b, live b (w_tr w') = live b (w_tr w);
  cp_fail : r <> OK -> exists e c1, In e errs /\ sel (w_ctx w) c1 /\
              kept (w_ctx w') = kept (after msg role SM_ABORTED e c1);
  cp_ok : r = OK -> exists c1, sel (w_ctx w) c1 /\
              kept (w_ctx w') = kept (fin (after msg role next EC_SUCCESS c1)) }.
Definition closed (w w' : world) : Prop :=
  forall k, handles k (w_tr w') = handles k (w_tr w).

Ltac kc := let c := fresh in let c' := fresh in let H := fresh in
  intros c c' H; unfold kept in H; injection H; intros; unfold kept; cbn; congruence.
Ltac mod_step :=
  lazymatch goal with
  | Hn : nonneg ?w0, H : st _ _ ?w0 ?w |- sat _ (modify ?f) ?w _ =>
      first [ eapply sat_fr; [exact Hn|exact H|dpos|apply modify_fr; intro; reflexivity
                             |clear H; intros ? ? H]
            | eapply sat_mod; [exact H|kc|clear H; intro H; apply (nonneg_wd f) in Hn; cbn [w_ctx w_tr] in H, Hn |- *] ];
      cbv beta
  end.
Ltac cgo_step :=
  lazymatch goal with
  | |- sat _ (modify _) _ _ => mod_step
  | |- sat _ (fail _ _) _ _ => cbv beta delta [fail]
  | |- sat _ (failp _ _) _ _ => cbv beta delta [failp]
  | |- sat _ (frees (_ :: _)) _ _ => cbn [frees]
  | |- sat _ (frees []) _ _ => cbn [frees]
  | _ => go_step
  end.
Ltac okfail := let X := fresh in intro X; exfalso;
  first [ solve [apply X; reflexivity] | discriminate X
        | match goal with H : (?r =? OK) = false |- _ => apply Z.eqb_neq in H; congruence end ].
Ltac leaf_c1 H :=
  let pick c F := lazymatch goal with
    | |- context [sel_id] => c
    | |- context [sel_neg] => constr:(set_csuite_idx (c_csuite_idx F) (set_chosen_method (c_chosen_method F) c))
    end in
  lazymatch type of H with st _ _ (Wd ?F (w_tr ?w)) _ => pick constr:(w_ctx w) F end.
Ltac leaf_sel := first [reflexivity | do 2 eexists; reflexivity].
Lemma leaf_intro : forall msg role next fin sel errs ks d F w w' r,
  st ks d (Wd F (w_tr w)) w' -> (forall b, d b = 0) -> (forall k, ks k = 0) ->
  (r <> OK -> exists e c1, In e errs /\ sel (w_ctx w) c1 /\
     kept F = kept (after msg role SM_ABORTED e c1)) ->
  (r = OK -> exists c1, sel (w_ctx w) c1 /\ kept F = kept (fin (after msg role next EC_SUCCESS c1))) ->
  callpost msg role next fin sel errs w r w' /\ closed w w'.
Proof.
  intros msg role next fin sel errs ks d F w w' r [A B C D] Hd Hk Hf Ho. cbn [w_ctx w_tr] in *.
  split; [split|].
  - exact B.
  - intro b. rewrite C, Hd. lia.
  - intro X. destruct (Hf X) as (e & c1 & H1 & H2 & H3). exists e, c1. split; [|split]; congruence.
  - intro X. destruct (Ho X) as (c1 & H2 & H3). exists c1. split; congruence.
  - intro k. rewrite D, Hk. lia.
Qed.
Ltac leaf :=
  cbn [fst snd];
  lazymatch goal with
  | H : st _ _ (Wd ?F _) _ |- _ =>
    let c1 := leaf_c1 H in
    apply (leaf_intro _ _ _ _ _ _ _ _ _ _ _ _ H);
    [ dfin | kfin
    | first [ solve [okfail] |
              intros _; exists (c_error F), c1; split; [cbn; tauto|split; [leaf_sel|reflexivity]] ]
    | first [ solve [okfail] | intros _; exists c1; split; [leaf_sel|reflexivity] ] ]
  end.
Ltac call_start :=
  let Hn := fresh "Hn" in let Hs := fresh "Hs" in let Hg := fresh "Hg" in
  intros nn ? w Hn -> Hs Hg; apply Z.eqb_neq in Hs; rewrite Hs; cbn [negb orb];
  apply sat_bind, sat_getc; rewrite Hg; cbn [negb]; clear Hg Hs;
  unfold enter; apply sat_bind, sat_modify;
  match goal with |- sat _ _ (Wd ?f ?t) _ =>
    let H := fresh "H" in
    pose proof (st_refl (Wd f t)) as H; change (nonneg (Wd f t)) in Hn end.

Section Calls.
Context {E : env}.

Lemma message_2_compose_post : forall nn size w, nonneg w ->
  nn = true -> size <> 0 -> in_state SM_RECEIVED_M1 TH_1 PRK_INVALID (w_ctx w) = true ->
  sat nofree (message_2_compose nn size) w (fun r w' =>
    callpost MSG_2 RESPONDER SM_WAIT_M3 (fun c => c) sel_id [EC_UNSPECIFIED] w (fst r) w'
    /\ closed w w').
Proof. unfold message_2_compose. call_start. repeat cgo_step. all: leaf. Qed.
Lemma message_2_process_post : forall nn msg w, nonneg w ->
  nn = true -> zlen msg <> 0 -> in_state SM_WAIT_M2 TH_1 PRK_INVALID (w_ctx w) = true ->
  sat nofree (message_2_process nn msg) w (fun r w' =>
    callpost MSG_2 INITIATOR SM_VERIFIED_M2 (fun c => c) sel_id [EC_UNSPECIFIED; EC_UNKNOWN_CRED]
      w r w' /\ closed w w').
Proof. unfold message_2_process. call_start. repeat cgo_step. all: leaf. Qed.
Lemma message_3_compose_post : forall nn size w, nonneg w ->
  nn = true -> size <> 0 -> in_state SM_VERIFIED_M2 TH_3 PRK_3E2M (w_ctx w) = true ->
  sat nofree (message_3_compose nn size) w (fun r w' =>
    callpost MSG_3 INITIATOR SM_COMPLETED (set_oscore_ok true) sel_id [EC_UNSPECIFIED]
      w (fst r) w' /\ closed w w').
Proof. unfold message_3_compose. call_start. repeat cgo_step. all: leaf. Qed.
Lemma message_3_process_post : forall nn msg w, nonneg w ->
  nn = true -> zlen msg <> 0 -> in_state SM_WAIT_M3 TH_3 PRK_3E2M (w_ctx w) = true ->
  sat nofree (message_3_process nn msg) w (fun r w' =>
    callpost MSG_3 RESPONDER SM_COMPLETED (set_oscore_ok true) sel_id
      [EC_UNSPECIFIED; EC_UNKNOWN_CRED] w r w' /\ closed w w').
Proof. unfold message_3_process. call_start. repeat cgo_step. all: leaf. Qed.
Lemma message_4_compose_post : forall nn size w, nonneg w ->
  nn = true -> size <> 0 -> in_state SM_COMPLETED TH_4 PRK_4E3M (w_ctx w) = true ->
  sat nofree (message_4_compose nn size) w (fun r w' =>
    callpost MSG_4 RESPONDER SM_PERSISTED (fun c => c) sel_id [EC_UNSPECIFIED]
      w (fst r) w' /\ closed w w').
Proof. unfold message_4_compose. call_start. repeat cgo_step. all: leaf. Qed.
Lemma message_4_process_post : forall nn msg w, nonneg w ->
  nn = true -> zlen msg <> 0 -> in_state SM_COMPLETED TH_4 PRK_4E3M (w_ctx w) = true ->
  sat nofree (message_4_process nn msg) w (fun r w' =>
    callpost MSG_4 INITIATOR SM_PERSISTED (fun c => c) sel_id [EC_UNSPECIFIED]
      w r w' /\ closed w w').
Proof. unfold message_4_process. call_start. repeat cgo_step. all: leaf. Qed.
Lemma message_1_process_post : forall nn msg w, nonneg w ->
  nn = true -> zlen msg <> 0 -> in_state SM_START TH_INVALID PRK_INVALID (w_ctx w) = true ->
  sat nofree (message_1_process nn msg) w (fun r w' =>
    callpost MSG_1 RESPONDER SM_RECEIVED_M1 (fun c => c) sel_neg
      [EC_UNSPECIFIED; EC_WRONG_SUITE] w r w' /\ closed w w').
Proof. unfold message_1_process. call_start. repeat cgo_step. all: leaf. Qed.

(** Message 1 compose has one path that keeps a handle open: its first allocation fails. *)
Definition closed_unless (b : bool) (w w' : world) : Prop := b = true \/ closed w w'.
Lemma leaf_intro' : forall msg role next fin sel errs ks d F w w' r b,
  st ks d (Wd F (w_tr w)) w' -> (forall b, d b = 0) -> (b = true \/ forall k, ks k = 0) ->
  (r <> OK -> exists e c1, In e errs /\ sel (w_ctx w) c1 /\
     kept F = kept (after msg role SM_ABORTED e c1)) ->
  (r = OK -> exists c1, sel (w_ctx w) c1 /\ kept F = kept (fin (after msg role next EC_SUCCESS c1))) ->
  callpost msg role next fin sel errs w r w' /\ closed_unless b w w'.
Proof.
  intros msg role next fin sel errs ks d F w w' r b [A B C D] Hd Hk Hf Ho. cbn [w_ctx w_tr] in *.
  split; [split|].
  - exact B.
  - intro x. rewrite C, Hd. lia.
  - intro X. destruct (Hf X) as (e & c1 & H1 & H2 & H3). exists e, c1. split; [|split]; congruence.
  - intro X. destruct (Ho X) as (c1 & H2 & H3). exists c1. split; congruence.
  - destruct Hk as [Hk|Hk]; [now left|right]. intro k. rewrite D, Hk. lia.
Qed.
Ltac leaf' :=
  cbn [fst snd];
  lazymatch goal with
  | H : st _ _ (Wd ?F _) _ |- _ =>
    let c1 := leaf_c1 H in
    apply (leaf_intro' _ _ _ _ _ _ _ _ _ _ _ _ _ H);
    [ dfin | first [ solve [left; reflexivity] | right; kfin ]
    | first [ solve [okfail] |
              intros _; exists (c_error F), c1; split; [cbn; tauto|split; [leaf_sel|reflexivity]] ]
    | first [ solve [okfail] | intros _; exists c1; split; [leaf_sel|reflexivity] ] ]
  end.
Lemma message_1_compose_post : forall nn size w, nonneg w ->
  nn = true -> size <> 0 -> in_state SM_START TH_INVALID PRK_INVALID (w_ctx w) = true ->
  sat nofree (message_1_compose nn size) w (fun r w' =>
    callpost MSG_1 INITIATOR SM_WAIT_M2 (fun c => c) sel_neg [EC_UNSPECIFIED] w (fst r) w'
    /\ closed_unless (fst r =? E_NO_MEM) w w').
Proof. unfold message_1_compose. call_start. repeat cgo_step. all: leaf'. Qed.

(** ** Exports *)
Definition balanced (w w' : world) : Prop :=
  (exists t, w_tr w' = t ++ w_tr w) /\ (forall b, live b (w_tr w') = live b (w_tr w)) /\ closed w w'.
Lemma balanced_intro : forall ks d F w w', st ks d (Wd F (w_tr w)) w' ->
  (forall b, d b = 0) -> (forall k, ks k = 0) -> balanced w w'.
Proof.
  intros ks d F w w' [A B C D] Hd Hk. cbn [w_tr] in *. split; [exact B|split].
  - intro b. rewrite C, Hd. lia.
  - intro k. rewrite D, Hk. lia.
Qed.
Lemma export_key_update_post : forall nn e w, nonneg w ->
  sat nofree (export_key_update nn e) w (fun r w' =>
    balanced w w' /\
    (r = OK -> nn = true /\ SM_COMPLETED <= c_status (w_ctx w) /\
       PRK_4E3M <= c_prk_state (w_ctx w) /\
       kept (w_ctx w') = kept (set_oscore_ok true (w_ctx w))) /\
    (r <> OK -> w' = w /\ (r = E_INVALID_ARG \/ r = E_BAD_STATE) \/
       SM_COMPLETED <= c_status (w_ctx w) /\
       kept (w_ctx w') = kept (set_status SM_ABORTED (w_ctx w)))).
Proof.
  intros nn e w Hn. unfold export_key_update.
  assert (R : forall w, balanced w w).
  { intro. split; [now exists []|]. split; [reflexivity|intro; reflexivity]. }
  split_bool (negb nn || (zlen e =? 0)).
  { apply sat_ret. split; [apply R|]. split; [discriminate|]. intros _. left. auto. }
  apply orb_false_elim in X as [X0 _].
  apply sat_bind, sat_getc. split_bool ((c_status (w_ctx w) <? SM_COMPLETED) || (c_prk_state (w_ctx w) <? PRK_4E3M)).
  { apply sat_ret. split; [apply R|]. split; [discriminate|]. intros _. left. auto. }
  apply orb_false_elim in X as [X1 X2]. apply Z.ltb_ge in X1, X2.
  apply sat_bind, sat_modify. 
  match goal with |- sat _ _ (Wd ?f ?t) _ =>
    pose proof (st_refl (Wd f t)) as H; change (nonneg (Wd f t)) in Hn end.
  repeat cgo_step.
  all: match goal with H : st _ _ (Wd ?F _) _ |- _ =>
    split; [apply (balanced_intro _ _ _ _ _ H); [dfin|kfin]|]; split;
    [ first [ solve [okfail] | intros _; split; [now destruct nn|]; split; [assumption|split; [assumption|];
        exact (st_kept _ _ _ _ H)]]
    | first [ solve [okfail] | intros _; right; split; [assumption|exact (st_kept _ _ _ _ H)]]] end.
Qed.
Lemma export_oscore_session_post : forall nn a b c d w, nonneg w ->
  sat nofree (export_oscore_session nn a b c d) w (fun r w' =>
    balanced w w' /\
    (fst r = OK -> nn = true /\ c_oscore_ok (w_ctx w) = true /\ SM_COMPLETED <= c_status (w_ctx w) /\
       PRK_4E3M <= c_prk_state (w_ctx w) /\
       kept (w_ctx w') = kept (set_oscore_ok false (w_ctx w))) /\
    (fst r <> OK -> w' = w /\ (fst r = E_INVALID_ARG \/ fst r = E_BAD_STATE) \/
       c_oscore_ok (w_ctx w) = true /\ SM_COMPLETED <= c_status (w_ctx w) /\
       kept (w_ctx w') = kept (set_oscore_ok false (set_status SM_ABORTED (w_ctx w))))).
Proof.
  intros nn a b c d w Hn. unfold export_oscore_session.
  assert (R : forall w, balanced w w).
  { intro. split; [now exists []|]. split; [reflexivity|intro; reflexivity]. }
  split_bool (negb nn || (a =? 0) || (b =? 0) || (c =? 0) || (d =? 0)).
  { apply sat_ret. split; [apply R|]. split; [discriminate|]. intros _. left. auto. }
  assert (X0 : nn = true) by (destruct nn; [reflexivity|discriminate]). clear X.
  apply sat_bind, sat_getc. split_bool (negb (c_oscore_ok (w_ctx w))).
  2:{ apply sat_ret. split; [apply R|]. split; [discriminate|]. intros _. left. auto. }
  split_bool ((c_status (w_ctx w) <? SM_COMPLETED) || (c_prk_state (w_ctx w) <? PRK_4E3M)).
  { apply sat_ret. split; [apply R|]. split; [discriminate|]. intros _. left. auto. }
  apply orb_false_elim in X1 as [X1 X2]. apply Z.ltb_ge in X1, X2.
  apply sat_bind, sat_modify. 
  match goal with |- sat _ _ (Wd ?f ?t) _ =>
    pose proof (st_refl (Wd f t)) as H; change (nonneg (Wd f t)) in Hn end.
  repeat cgo_step.
  all: cbn [fst]; match goal with H : st _ _ (Wd ?F _) _ |- _ =>
    split; [apply (balanced_intro _ _ _ _ _ H); [dfin|kfin]|]; split;
    [ first [ solve [okfail] | intros _; repeat (split; [first [assumption|reflexivity]|]);
        exact (st_kept _ _ _ _ H)]
    | first [ solve [okfail] | intros _; right; repeat (split; [first [assumption|reflexivity]|]); exact (st_kept _ _ _ _ H)]] end.
Qed.
End Calls.
