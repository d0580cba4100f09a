(** Memory safety of whole histories. *)
From Verif Require Import Monad Api Common Msg1 Msg2 Msg3 Msg4 Exporter History Spec Rfc Uses Policy Safety
  Facts Logic CborProofs CodecProofs RoundTrip ConfigProofs HistoryProofs SessionProofs SafeProofs.

Section Hist.
Context {E : env}.
Hypothesis HL : limits.
Hypothesis HA : abides.

Record inv (c : ctx) : Prop := Inv {
  iv_suites : Forall suite_fits (c_csuites c);
  iv_len : 0 <= c_csuite_len c <= cf_max_suites;
  iv_idx : (c_csuite_idx c <? cf_max_suites) = true;
  iv_cid1 : cid_type (c_cid c) = CID_INT -> -24 <= cid_int (c_cid c) <= 23;
  iv_cid2 : cid_type (c_cid c) = CID_BSTR -> zlen (cid_bstr (c_cid c)) <= 65535;
  iv_th : 0 <= c_th_len c <= cf_max_mac;
  iv_prk : 0 <= c_prk_len c <= cf_max_mac;
  iv_pub : 0 <= c_dh_pub_len c <= cf_max_ecc;
  iv_priv : 0 <= c_dh_priv_len c <= cf_max_ecc;
  iv_peer : 0 <= c_dh_peer_len c <= cf_max_ecc;
  iv_secret : 0 <= c_dh_secret_len c <= cf_max_ecc;
  iv_tok : c_status c = SM_ABORTED \/ c_tokens c = [];
  iv_tokn : zlen (c_tokens c) <= 3;
  iv_pl : c_status c = SM_START -> c_peer_csuite_len c = 0 }.

Lemma suite0_fits : suite_fits csuite0.
Proof. pose proof (lm_mac HL). pose proof (lm_ecc HL). constructor; cbn; lia. Qed.
Lemma nth_fits : forall l n, Forall suite_fits l -> suite_fits (nth n l csuite0).
Proof.
  intros l n H. destruct (nth_in_or_default n l csuite0) as [X| ->]; [|exact suite0_fits].
  rewrite Forall_forall in H. auto.
Qed.
Lemma inv_init : inv (set_is_init true ctx0) /\ inv ctx0.
Proof.
  pose proof (lm_mac HL). pose proof (lm_ecc HL). pose proof (lm_suites HL).
  split; constructor; cbn; auto; try lia; try discriminate; unfold zlen; cbn; lia.
Qed.

Definition vof (c : ctx) (msg st : Z) : gfix := GF (c_cid c) (the_suite c) msg (c_chosen_method c) st (c_csuites c) (c_csuite_len c).
Definition v1of (c : ctx) (m : Z) : gfix :=
  GF (c_cid c) (csuite_at c (c_csuite_len c - 1)) MSG_1 m SM_ABORTED (c_csuites c) (c_csuite_len c).
Lemma good_in : forall T c msg role, inv c -> bound c -> c_tokens c = [] ->
  good T (vof c msg SM_ABORTED) (entered msg role c).
Proof. intros T c msg role [] B Ht. constructor; cbn; auto; try (rewrite Ht; auto; cbn; lia); try discriminate. Qed.
Lemma good_in1 : forall T c m role, inv c -> bound c -> c_tokens c = [] ->
  good T (v1of c m) (set_chosen_method m (set_csuite_idx (c_csuite_len c - 1) (entered MSG_1 role c))).
Proof.
  intros T c m role [] B Ht. constructor; cbn; auto; try (rewrite Ht; auto; cbn; lia); try discriminate. lia.
Qed.
Lemma fin_inv : forall T v c, fin T v c -> Forall suite_fits (g_cs v) -> 0 <= g_csl v <= cf_max_suites ->
  (cid_type (g_cid v) = CID_INT -> -24 <= cid_int (g_cid v) <= 23) ->
  (cid_type (g_cid v) = CID_BSTR -> zlen (cid_bstr (g_cid v)) <= 65535) ->
  (g_st v = SM_ABORTED \/ c_tokens c = []) -> inv c.
Proof.
  intros T v c (st & G & S & D) H1 H2 H3 H4 H5. destruct G. cbn in *.
  constructor; try assumption; rewrite ?gd_cs, ?gd_csl, ?gd_cid; try assumption; rewrite S.
  - destruct D as [->|[D _]]; auto.
  - destruct D as [->|[_ D]]; [exact gd_pl|congruence].
Qed.
Lemma early_inv : forall c c' role, inv c -> early c c' role -> c' <> c -> inv c'.
Proof.
  intros c c' role [] [->|[->| ->]] N; [congruence| |]; constructor; cbn; auto; try discriminate; lia.
Qed.

Lemma opens_whole : forall msg, opens_message_1 msg -> whole1 msg.
Proof.
  intros msg (method & suites & gx & ci & r & Hm & Hs1 & Hs2 & Hg & Hc & ->). unfold whole1.
  unfold cbor_seq. cbn [app flat_map]. rewrite app_nil_r, <- !app_assoc. unfold dec_message_1. cbv zeta.
  rewrite int_dec by (assumption || lia).
  rewrite (suites_p_rt cf_canon (suites_v suites) _ _ _ (suites_v_ok _ Hs1 Hs2) (suites_v_enc _ Hs1)) by lia.
  set (su := match suites_v suites with SuInt v => SR true 1 [] v | SuList l => SR true 0 l 0 end).
  assert (SU : sr_ok su = true). { subst su. destruct suites as [|x [|y s]]; [cbn in Hs1; lia|cbn; auto..]. }
  clearbody su. rewrite SU. cbn [negb]. rewrite str_p_dec by (assumption || lia).
  destruct ci as [v|b]; cbn [cid_item cid_within] in *.
  - rewrite num_not_str by (unfold int32; lia). rewrite int_dec by (unfold int32; lia).
    replace ((-24 <=? v) && (v <=? 23)) with true by lia. destruct (dec_ead _ _) as [[? ?] ?]. reflexivity.
  - rewrite str_p_dec by lia. destruct (dec_ead _ _) as [[? ?] ?]. reflexivity.
Qed.
Lemma opens_long : forall n msg z, opens_bstr n msg -> dec_message_2 msg = Some z -> n <= zs_len z < 2 ^ 64.
Proof.
  intros n msg z (b & r & -> & L) D. unfold dec_message_2 in D. rewrite str_p_dec in D by lia. now inversion D.
Qed.
Definition okU (a : api) (c : ctx) (u : ub) : Prop := may a c u \/ u = UbFree.
Lemma fin_vof : forall T w c' msg st, inv (w_ctx w) -> st = SM_ABORTED -> fin T (vof (w_ctx w) msg st) c' -> inv c'.
Proof. intros T w c' msg st I -> F. destruct I. apply (fin_inv _ _ _ F); cbn; auto. Qed.

Lemma msg_safe : forall a k w, kind a = Some k -> inv (w_ctx w) -> fit_call a (w_ctx w) ->
  sat (okU a (w_ctx w)) (do_api a) w (fun _ w' => inv (w_ctx w')).
Proof.
  intros a k w Hk Hi Hf.
  destruct (args_dec a) as [Ha|Ha].
  2:{ destruct (guard_args _ _ w Hk Ha) as [o X]. unfold sat. now rewrite X. }
  destruct (permitted_dec k (w_ctx w)) as [Hp|Hp].
  2:{ destruct (guard_state _ _ _ Hk Ha Hp) as [o X]. unfold sat. now rewrite X. }
  assert (Ht : c_tokens (w_ctx w) = []).
  { destruct (iv_tok _ Hi) as [X|X]; [|exact X]. unfold permitted in Hp. rewrite X in Hp. destruct k; discriminate Hp. }
  assert (Hb : bound (w_ctx w)) by (destruct a; try discriminate Hk; exact Hf).
  assert (Hs : suite_fits (the_suite (w_ctx w))) by (apply nth_fits, (iv_suites _ Hi)).
  assert (Hs1 : suite_fits (csuite_at (w_ctx w) (c_csuite_len (w_ctx w) - 1))) by (apply nth_fits, (iv_suites _ Hi)).
  pose proof (lm_suites HL). destruct (Hi) as [? ? ? Cid1 Cid2 ? ? ? ? ? ? ? ? Pl].
  assert (F : okU a (w_ctx w) UbFree) by now right.
  assert (R : forall T msg c', c' = w_ctx w \/ fin T (vof (w_ctx w) msg SM_ABORTED) c' -> inv c').
  { intros T msg c' [->|X]; [exact Hi|]. exact (fin_vof _ _ _ _ _ Hi eq_refl X). }
  assert (R1 : forall T m role c', early (w_ctx w) c' role \/ fin T (v1of (w_ctx w) m) c' -> inv c').
  { intros T m role c' [X|X].
    - destruct X as [->|X]; [exact Hi|]. apply (early_inv (w_ctx w) c' role Hi); [right; exact X|].
      intros ->. destruct X as [X|X]; apply (f_equal c_status) in X; cbn in X; unfold permitted in Hp; rewrite X in Hp; destruct k; discriminate Hp.
    - apply (fin_inv _ _ _ X); cbn; auto. }
  destruct a; try discriminate Hk; cbn [do_api]; unfold msg_out, no_out; apply sat_bind.
  - eapply sat_conseq; [eapply (m1c_sx (okU _ _) tok_fits (v1of (w_ctx w) _)); cbn; auto|].
    + intro S. left. split; auto.
    + left. auto.
    + apply good_in1; assumption.
    + intros [r b] w' X. apply sat_ret. exact (R1 _ _ _ _ X).
  - eapply sat_conseq; [eapply (m1p_sx (okU _ _) (fun _ => False) (v1of (w_ctx w) _)); cbn; auto|].
    + discriminate.
    + destruct (fst (fst (dec_message_1 cf_canon msg))) eqn:D; [now left|right].
      assert (~ opens_message_1 msg) by (intro X; apply opens_whole in X; unfold whole1 in X; congruence).
      split; left; assumption.
    + intro S. specialize (Pl S). lia.
    + apply good_in1; assumption.
    + intros r w' X. apply sat_ret. exact (R1 _ _ _ _ X).
  - eapply sat_conseq; [eapply (m2c_sx (okU _ _) tok_fits (vof (w_ctx w) MSG_2 SM_ABORTED)); cbn; auto|].
    + intro S. left. split; auto.
    + left. auto.
    + apply good_in; assumption.
    + intros [r b] w' X. apply sat_ret. exact (R _ _ _ X).
  - eapply sat_conseq; [eapply (m2p_sx (okU _ _) (fun _ => True) (vof (w_ctx w) MSG_2 SM_ABORTED)); cbn; auto|].
    + intro S. left. split; auto.
    + right. left. exact I.
    + destruct (dec_message_2 msg) as [z|] eqn:D; [|left; intros z X; congruence].
      destruct ((cs_ecc (the_suite (w_ctx w)) <=? zs_len z) && (zs_len z <? 2 ^ 64)) eqn:L.
      * left. intros z' X. cbn. rewrite D in X. inversion X; subst. lia.
      * right. left. intro O. pose proof (opens_long _ _ _ O D). lia.
    + left. exact I.
    + apply good_in; assumption.
    + intros r w' X. apply sat_ret. exact (R _ _ _ X).
  - eapply sat_conseq; [eapply (m3c_sx (okU _ _) tok_fits (vof (w_ctx w) MSG_3 SM_ABORTED)); cbn; auto|].
    + intro S. left. split; auto.
    + left. auto.
    + left. exact I.
    + apply good_in; assumption.
    + intros [r b] w' X. apply sat_ret. exact (R _ _ _ X).
  - eapply sat_conseq; [eapply (m3p_sx (okU _ _) (fun _ => True) (vof (w_ctx w) MSG_3 SM_ABORTED)); cbn; auto|].
    + intro S. left. split; auto.
    + right. left. exact I.
    + left. exact I.
    + apply good_in; assumption.
    + intros r w' X. apply sat_ret. exact (R _ _ _ X).
  - eapply sat_conseq; [eapply (m4c_sx (okU _ _) tok_fits (vof (w_ctx w) MSG_4 SM_ABORTED)); cbn; auto|].
    + intro S. left. split; auto.
    + left. auto.
    + apply good_in; assumption.
    + intros [r b] w' X. apply sat_ret. exact (R _ _ _ X).
  - eapply sat_conseq; [eapply (m4p_sx (okU _ _) (fun _ => True) (vof (w_ctx w) MSG_4 SM_ABORTED)); cbn; auto|].
    + intro S. left. split; auto.
    + apply good_in; assumption.
    + intros r w' X. apply sat_ret. exact (R _ _ _ X).
Qed.

Lemma blit_fits : forall l d, Forall suite_fits l -> Forall suite_fits d -> Forall suite_fits (blit l d).
Proof.
  intros. unfold blit. apply Forall_app. split; [assumption|]. rewrite Forall_forall in *. intros x Hx. apply H.
  rewrite <- (firstn_skipn (length d) l). apply in_or_app. now right.
Qed.
Lemma cfg_safe : forall U f w, inv (snd (f (w_ctx w))) ->
  sat U (cfg f) w (fun _ w' => inv (w_ctx w')).
Proof. intros U f w H. unfold sat. now rewrite cfg_run. Qed.

Lemma exp_good : forall c, inv c -> bound c ->
  good (fun _ => c_status c = SM_ABORTED) (vof c (c_message c) SM_ABORTED) (set_status SM_ABORTED c).
Proof.
  intros c [] B. constructor; cbn; auto; try discriminate.
  destruct iv_tok0 as [S|S]; [|rewrite S; auto]. rewrite S. apply Forall_forall. auto.
Qed.
Lemma exp_good0 : forall c, inv c -> bound c ->
  good (fun _ => c_status c = SM_ABORTED) (vof c (c_message c) (c_status c)) c.
Proof.
  intros c [] B. constructor; cbn; auto.
  destruct iv_tok0 as [S|S]; [|rewrite S; auto]. rewrite S. apply Forall_forall. auto.
Qed.

Lemma step_safe : forall a w, inv (w_ctx w) -> fit_call a (w_ctx w) ->
  sat (okU a (w_ctx w)) (do_api a) w (fun _ w' => inv (w_ctx w')).
Proof.
  intros a w Hi Hf. destruct (kind a) as [k|] eqn:Hk; [exact (msg_safe a k w Hk Hi Hf)|].
  pose proof inv_init as [I1 I0].
  assert (Hs : suite_fits (the_suite (w_ctx w))) by (apply nth_fits, (iv_suites _ Hi)).
  assert (F : okU a (w_ctx w) UbFree) by now right.
  destruct a; try discriminate Hk; cbn [do_api]; try apply cfg_safe.
  - exact I1.
  - unfold context_deinit. destruct (negb _); [exact Hi|exact I0].
  - destruct (set_methods_call m (w_ctx w)) as [r c'] eqn:X. cbn [snd].
    pose proof (set_methods_spec _ _ _ _ X) as (P & Q & R). destruct (Z.eq_dec r OK) as [Y|Y]; [|now rewrite Q].
    destruct (proj1 P Y) as (_ & l & -> & _). destruct (R Y l eq_refl) as (_ & _ & a & b & ->). destruct Hi; now constructor.
  - destruct (set_cipher_suites_call s (w_ctx w)) as [r c'] eqn:X. cbn [snd].
    pose proof (set_cipher_suites_spec _ _ _ _ X) as (P & Q & R). destruct (Z.eq_dec r OK) as [Y|Y]; [|now rewrite Q].
    destruct (proj1 P Y) as (Hin & l & -> & L). destruct (R Y l eq_refl) as (L1 & _ & a & b & ->).
    subst r. cbn [fit_call] in Hf. unfold set_cipher_suites_call in X. rewrite Hin in X.
    repeat match type of X with context [if ?b then _ else _] => destruct b; try discriminate X end.
    apply (f_equal (fun z => c_csuites (snd z))) in X. cbn in X, L1. rewrite <- X.
    destruct Hi. constructor; cbn; auto; [now apply blit_fits|lia].
  - destruct (set_connection_id_call i (w_ctx w)) as [r c'] eqn:X. cbn [snd].
    pose proof (set_connection_id_spec _ _ _ _ X) as (P & Q & R). destruct (Z.eq_dec r OK) as [Y|Y]; [|now rewrite Q].
    destruct (proj1 P Y) as (_ & v & -> & L). destruct (R Y v eq_refl) as (L1 & a & ->). cbn in L1. subst a.
    pose proof (lm_cid HL).
    destruct Hi; constructor; cbn; auto; intro Z; destruct L as [[A B]|[A B]]; auto; try lia; rewrite A in Z; discriminate Z.
  - destruct (set_user_context_call u (w_ctx w)) as [r c'] eqn:X. cbn [snd].
    pose proof (set_user_context_spec _ _ _ _ X) as (P & Q & R). destruct (Z.eq_dec r OK) as [Y|Y]; [|now rewrite Q].
    destruct (R Y) as (_ & a & ->). destruct Hi; now constructor.
  - destruct (bind_ead_call e (w_ctx w)) as [r c'] eqn:X. cbn [snd].
    pose proof (bind_ead_spec _ _ _ _ X) as (P & Q & R). destruct (Z.eq_dec r OK) as [Y|Y]; [|now rewrite Q].
    destruct (R Y) as (_ & a & ->). destruct Hi; now constructor.
  - destruct (bind_keys_call k (w_ctx w)) as [r c'] eqn:X. cbn [snd].
    pose proof (bind_keys_spec _ _ _ _ X) as (P & Q & R). destruct (Z.eq_dec r OK) as [Y|Y]; [|now rewrite Q].
    destruct (R Y) as (_ & a & ->). destruct Hi; now constructor.
  - destruct (bind_crypto_call k (w_ctx w)) as [r c'] eqn:X. cbn [snd].
    pose proof (bind_crypto_spec _ _ _ _ X) as (P & Q & R). destruct (Z.eq_dec r OK) as [Y|Y]; [|now rewrite Q].
    destruct (R Y) as (_ & a & ->). destruct Hi; now constructor.
  - destruct (bind_credentials_call k (w_ctx w)) as [r c'] eqn:X. cbn [snd].
    pose proof (bind_credentials_spec _ _ _ _ X) as (P & Q & R). destruct (Z.eq_dec r OK) as [Y|Y]; [|now rewrite Q].
    destruct (R Y) as (_ & a & ->). destruct Hi; now constructor.
  - destruct Hf as [Hb Hn]. unfold msg_out. apply sat_bind. eapply sat_conseq.
    + apply (export_sf (okU _ _) (fun _ => c_status (w_ctx w) = SM_ABORTED) (vof (w_ctx w) (c_message (w_ctx w)) (c_status (w_ctx w)))); auto.
      * intro S. left. split; auto.
      * apply exp_good0; assumption.
    + intros [r b] w' [_ G]. apply sat_ret. destruct Hi, G. cbn in *. constructor; rewrite ?gd_cs, ?gd_csl, ?gd_cid, ?gd_st; auto.
      destruct iv_tok0 as [S|S]; [auto|]. destruct (Z.eq_dec (c_status (w_ctx w)) SM_ABORTED) as [Y|Y]; [auto|].
      right. destruct (c_tokens (w_ctx w')) as [|t l]; [reflexivity|]. inversion gd_tok; subst; contradiction.
  - unfold no_out. apply sat_bind. eapply sat_conseq.
    + eapply (key_update_sx (okU _ _) (fun _ => c_status (w_ctx w) = SM_ABORTED) (vof (w_ctx w) (c_message (w_ctx w)) SM_ABORTED)); auto.
      * intro S. left. split; auto.
      * apply exp_good; assumption.
      * intros A t B. rewrite B in A. unfold SM_COMPLETED, SM_ABORTED in A. lia.
    + intros r w' [X|X]; apply sat_ret; [now rewrite X|]. exact (fin_vof _ _ _ _ _ Hi eq_refl X).
  - destruct Hf as (Hb & N1 & N2). apply sat_bind. eapply sat_conseq.
    + eapply (oscore_sx (okU _ _) (fun _ => c_status (w_ctx w) = SM_ABORTED) (vof (w_ctx w) (c_message (w_ctx w)) SM_ABORTED)); auto.
      * intro S. left. split; auto.
      * destruct (exp_good _ Hi Hb). constructor; assumption.
      * intros A t B. rewrite B in A. unfold SM_COMPLETED, SM_ABORTED in A. lia.
    + intros [r o] w' [X|X]; apply sat_ret; [now rewrite X|]. exact (fin_vof _ _ _ _ _ Hi eq_refl X).
  - apply sat_bind, sat_getc. destruct (error_get_code _ _). now apply sat_ret.
  - apply sat_bind, sat_getc. destruct (error_get_cipher_suites _ _ _ _) as [[? ?] ?]. now apply sat_ret.
Qed.

Lemma runs_safe : forall l w, inv (w_ctx w) -> nonneg w -> careful l w -> forall u, runs l w = Ub u ->
  exists p a s rs w', l = p ++ a :: s /\ runs p w = Ret rs w' /\ do_api a w' = Ub u /\ may a (w_ctx w') u.
Proof.
  induction l as [|a l IH]; intros w Hi Hn Hc u H; [discriminate H|].
  destruct Hc as [Hf Hc]. cbn [runs] in H. pose proof (step_safe a w Hi Hf) as S. unfold sat in S.
  unfold bind at 1 in H. destruct (do_api a w) as [r w1|u1] eqn:X.
  - unfold bind at 1 in H. destruct (runs l w1) as [rs w2|u2] eqn:Y; [discriminate H|]. inversion H; subst u2.
    destruct (IH w1 S (step_nonneg _ _ _ _ Hn X) (Hc _ _ eq_refl) u Y) as (p & b & s & rs & w' & -> & R & D & M).
    exists (a :: p), b, s, ((a, r) :: rs), w'. split; [reflexivity|]. split; [|auto].
    cbn [runs]. unfold bind. rewrite X, R. reflexivity.
  - inversion H; subst u1. exists [], a, l, [], w. split; [reflexivity|]. split; [reflexivity|]. split; [exact X|].
    destruct S as [S|S]; [exact S|]. elim (step_ub _ _ _ Hn X S).
Qed.
Lemma history_inv : forall l w rs w', inv (w_ctx w) -> careful l w -> runs l w = Ret rs w' -> inv (w_ctx w').
Proof.
  induction l as [|a l IH]; intros w rs w' Hi Hc H.
  - apply runs_nil in H as [_ ->]. exact Hi.
  - apply runs_cons in H as (r & w1 & rs' & X & Y & _). destruct Hc as [Hf Hc].
    apply (IH w1 rs' w'); [|exact (Hc _ _ X)|exact Y]. pose proof (step_safe a w Hi Hf) as S. unfold sat in S. now rewrite X in S.
Qed.
Lemma start_inv : forall tr, inv (w_ctx (Wd (set_is_init true ctx0) tr)).
Proof. intros. apply inv_init. Qed.
End Hist.
