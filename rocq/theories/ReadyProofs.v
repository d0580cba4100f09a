(** Willing parties complete the handshake. *)
From Verif Require Import Monad Api Common Msg1 Msg2 Msg3 Msg4 History Spec Rfc Uses Conform Policy Received Sessions Safety
  Facts Logic Sym CborProofs RfcProofs CodecProofs RoundTrip Steps Steps2 Steps3 Calls HistoryProofs SessionProofs Claims3 Agree Fresh SafeHistory MemProofs
  Ready ReadyStep ReadyLib ReadyMac ReadyWire ReadyMsg ReadyRead Ready1 Ready2 Ready3.

Section One.
Context {E : env}.
Hypothesis HL : limits.
Hypothesis HA : abides.
Definition tame (fin : ctx -> ctx) : Prop := forall c, c_keys (fin c) = c_keys c /\ c_crypto (fin c) = c_crypto c /\ c_cred (fin c) = c_cred c.
Lemma keep_bound : forall msg role next fin sel errs w r w', callpost msg role next fin sel errs w r w' -> r = OK ->
  tame fin -> (sel = sel_id \/ sel = sel_neg) -> bound (w_ctx w) -> bound (w_ctx w').
Proof.
  intros msg role next fin sel errs w r w' C R T S B. destruct (cp_ok _ _ _ _ _ _ _ _ _ C R) as (c1 & X & K).
  assert (c_keys c1 = c_keys (w_ctx w) /\ c_crypto c1 = c_crypto (w_ctx w) /\ c_cred c1 = c_cred (w_ctx w)) as (Y1 & Y2 & Y3).
  { destruct S as [-> | ->]; [now rewrite X|]. destruct X as (i & q & ->). now cbn. }
  destruct (T (after msg role next EC_SUCCESS c1)) as (T1 & T2 & T3). unfold kept in K. injection K. intros.
  unfold bound in *. cbn in T1, T2, T3. congruence.
Qed.
Lemma keep_osc : forall msg role next fin errs w r w', callpost msg role next fin sel_id errs w r w' -> r = OK ->
  (forall c, c_oscore_ok (fin c) = true \/ fin c = c) -> c_oscore_ok (w_ctx w) = true \/ (forall c, c_oscore_ok (fin c) = true) -> c_oscore_ok (w_ctx w') = true.
Proof.
  intros msg role next fin errs w r w' C R T S. destruct (cp_ok _ _ _ _ _ _ _ _ _ C R) as (c1 & -> & K).
  unfold kept in K. injection K. intros. destruct S as [S|S]; [|rewrite <- (S (after msg role next EC_SUCCESS (w_ctx w))); congruence].
  destruct (T (after msg role next EC_SUCCESS (w_ctx w))) as [X|X]; [congruence|]. rewrite X in *. cbn in *. congruence.
Qed.
Lemma run_ret : forall A (m : M A) w P Q, sat HU m w P -> (forall u, m w = Ub u -> ~ HU u) -> sat nofree m w Q ->
  exists a w', m w = Ret a w' /\ P a w' /\ Q a w'.
Proof.
  intros A m w P Q H1 H2 H3. unfold sat in H1, H3. destruct (m w) as [a w'|u] eqn:D; [|now elim (H2 u eq_refl)].
  exists a, w'. auto.
Qed.
Lemma may_hu : forall a c u, cf_stack = None -> (match a with AM1Process _ msg => opens_message_1 msg | AM2Process _ msg => opens_bstr (cs_ecc (the_suite c)) msg | _ => True end) ->
  may a c u -> ~ HU u.
Proof.
  intros a c u S O M (H1 & H2 & H3). destruct u; cbn [may] in M; try congruence; destruct a; try contradiction; destruct M; congruence.
Qed.
Lemma out_ret : forall m w r b w', m w = Ret (r, b) w' -> msg_out m w = Ret (r, OBytes b) w'.
Proof. intros m w r b w' H. unfold msg_out, bind. now rewrite H. Qed.
Lemma out_ub : forall m w u, m w = Ub u -> msg_out m w = Ub u.
Proof. intros m w u H. unfold msg_out, bind. now rewrite H. Qed.
Lemma no_ret : forall m w r w', m w = Ret r w' -> no_out m w = Ret (r, ONone) w'.
Proof. intros m w r w' H. unfold no_out, bind. now rewrite H. Qed.
Lemma no_ub : forall m w u, m w = Ub u -> no_out m w = Ub u.
Proof. intros m w u H. unfold no_out, bind. now rewrite H. Qed.

(** A call of a careful program that meets no fault considered here, to its end. *)
Definition well (w : world) : Prop := careful_world w /\ bound (w_ctx w).
Definition openable (a : api) (c : ctx) : Prop :=
  match a with AM1Process _ msg => opens_message_1 msg | AM2Process _ msg => opens_bstr (cs_ecc (the_suite c)) msg | _ => True end.
Lemma call_out : forall a (m : M (Z * bytes)) w P msg role next fin sel errs Z,
  do_api a = msg_out m -> kind a <> None -> cf_stack = None -> openable a (w_ctx w) -> well w -> 
  sat HU m w (fun y w' => fst y = OK /\ P y w') ->
  sat nofree m w (fun y w' => callpost msg role next fin sel errs w (fst y) w' /\ Z y w') -> tame fin -> (sel = sel_id \/ sel = sel_neg) ->
  exists b w', do_api a w = Ret (OK, OBytes b) w' /\ P (OK, b) w' /\ well w' /\ callpost msg role next fin sel errs w OK w'.
Proof.
  intros a m w P msg role next fin sel errs Zq D K S O [C B] H1 H2 TF SL.
  assert (fit_call a (w_ctx w)) as F by (destruct a; cbn [fit_call kind] in *; try contradiction; try congruence; assumption).
  assert (forall u, m w = Ub u -> ~ HU u) as NU.
  { intros u U. apply (may_hu a (w_ctx w)); [exact S|exact O|]. apply (careful_call HL HA); [exact C|exact F|]. rewrite D. now apply out_ub. }
  destruct (run_ret _ _ _ _ _ H1 NU H2) as ([r b] & w' & R & [R1 R2] & R3 & _).
  cbn [fst] in R1. subst r. exists b, w'. rewrite D. rewrite (out_ret _ _ _ _ _ R). split; [reflexivity|]. split; [exact R2|]. split; [split|exact R3].
  - apply (careful_step w a (OK, OBytes b)); [exact C|exact F|]. rewrite D. now apply out_ret.
  - eapply keep_bound; [exact R3|reflexivity|exact TF|exact SL|exact B].
Qed.
Lemma call_no : forall a (m : M Z) w P msg role next fin sel errs Z,
  do_api a = no_out m -> kind a <> None -> cf_stack = None -> openable a (w_ctx w) -> well w -> 
  sat HU m w (fun y w' => y = OK /\ P w') ->
  sat nofree m w (fun y w' => callpost msg role next fin sel errs w y w' /\ Z y w') -> tame fin -> (sel = sel_id \/ sel = sel_neg) ->
  exists w', do_api a w = Ret (OK, ONone) w' /\ P w' /\ well w' /\ callpost msg role next fin sel errs w OK w'.
Proof.
  intros a m w P msg role next fin sel errs Zq D K S O [C B] H1 H2 TF SL.
  assert (fit_call a (w_ctx w)) as F by (destruct a; cbn [fit_call kind] in *; try contradiction; try congruence; assumption).
  assert (forall u, m w = Ub u -> ~ HU u) as NU.
  { intros u U. apply (may_hu a (w_ctx w)); [exact S|exact O|]. apply (careful_call HL HA); [exact C|exact F|]. rewrite D. now apply no_ub. }
  destruct (run_ret _ _ _ _ _ H1 NU H2) as (r & w' & R & [R1 R2] & R3 & _).
  subst r. exists w'. rewrite D. rewrite (no_ret _ _ _ _ R). split; [reflexivity|]. split; [exact R2|]. split; [split|exact R3].
  - apply (careful_step w a (OK, ONone)); [exact C|exact F|]. rewrite D. now apply no_ret.
  - eapply keep_bound; [exact R3|reflexivity|exact TF|exact SL|exact B].
Qed.
Lemma tame_id : tame (fun c => c). Proof. intro c. auto. Qed.
Lemma tame_oscore : tame (set_oscore_ok true). Proof. intro c. auto. Qed.
Lemma api_1c : forall n w P, cf_stack = None -> well w -> n <> 0 -> in_state SM_START TH_INVALID PRK_INVALID (w_ctx w) = true ->
  sat HU (message_1_compose true n) w (fun y w' => fst y = OK /\ P y w') ->
  exists b w', do_api (AM1Compose true n) w = Ret (OK, OBytes b) w' /\ P (OK, b) w' /\ well w'.
Proof.
  intros n w P S W N I H. edestruct (call_out (AM1Compose true n)) as (b & w' & H1 & H2 & H3 & H4); [reflexivity|discriminate|exact S|exact Logic.I|exact W|exact H| |apply tame_id|now apply or_intror|].
  { apply message_1_compose_post; try assumption; [|reflexivity]. apply reachable_nonneg, careful_reach, W. }
  exists b, w'. split; [exact H1|]. split; [exact H2|exact H3].
Qed.
Lemma api_1p : forall msg w P, cf_stack = None -> well w -> 0 < zlen msg -> in_state SM_START TH_INVALID PRK_INVALID (w_ctx w) = true -> openable (AM1Process true msg) (w_ctx w) ->
  sat HU (message_1_process true msg) w (fun y w' => y = OK /\ P w') ->
  exists w', do_api (AM1Process true msg) w = Ret (OK, ONone) w' /\ P w' /\ well w'.
Proof.
  intros msg w P S W N I O H. edestruct (call_no (AM1Process true msg)) as (w' & H1 & H2 & H3 & H4); [reflexivity|discriminate|exact S|exact O|exact W|exact H| |apply tame_id|now apply or_intror|].
  { apply message_1_process_post; try assumption; [|reflexivity|lia]. apply reachable_nonneg, careful_reach, W. }
  exists w'. split; [exact H1|]. split; [exact H2|exact H3].
Qed.
Lemma api_2c : forall n w P, cf_stack = None -> well w -> n <> 0 -> in_state SM_RECEIVED_M1 TH_1 PRK_INVALID (w_ctx w) = true ->
  sat HU (message_2_compose true n) w (fun y w' => fst y = OK /\ P y w') ->
  exists b w', do_api (AM2Compose true n) w = Ret (OK, OBytes b) w' /\ P (OK, b) w' /\ well w'.
Proof.
  intros n w P S W N I H. edestruct (call_out (AM2Compose true n)) as (b & w' & H1 & H2 & H3 & H4); [reflexivity|discriminate|exact S|exact Logic.I|exact W|exact H| |apply tame_id|now apply or_introl|].
  { apply message_2_compose_post; try assumption; [|reflexivity]. apply reachable_nonneg, careful_reach, W. }
  exists b, w'. split; [exact H1|]. split; [exact H2|exact H3].
Qed.
Lemma api_2p : forall msg w P, cf_stack = None -> well w -> 0 < zlen msg -> in_state SM_WAIT_M2 TH_1 PRK_INVALID (w_ctx w) = true -> openable (AM2Process true msg) (w_ctx w) ->
  sat HU (message_2_process true msg) w (fun y w' => y = OK /\ P w') ->
  exists w', do_api (AM2Process true msg) w = Ret (OK, ONone) w' /\ P w' /\ well w'.
Proof.
  intros msg w P S W N I O H. edestruct (call_no (AM2Process true msg)) as (w' & H1 & H2 & H3 & H4); [reflexivity|discriminate|exact S|exact O|exact W|exact H| |apply tame_id|now apply or_introl|].
  { apply message_2_process_post; try assumption; [|reflexivity|lia]. apply reachable_nonneg, careful_reach, W. }
  exists w'. split; [exact H1|]. split; [exact H2|exact H3].
Qed.
Lemma api_3c : forall n w P, cf_stack = None -> well w -> n <> 0 -> in_state SM_VERIFIED_M2 TH_3 PRK_3E2M (w_ctx w) = true ->
  sat HU (message_3_compose true n) w (fun y w' => fst y = OK /\ P y w') ->
  exists b w', do_api (AM3Compose true n) w = Ret (OK, OBytes b) w' /\ P (OK, b) w' /\ well w' /\ c_oscore_ok (w_ctx w') = true.
Proof.
  intros n w P S W N I H. edestruct (call_out (AM3Compose true n)) as (b & w' & H1 & H2 & H3 & H4); [reflexivity|discriminate|exact S|exact Logic.I|exact W|exact H| |apply tame_oscore|now apply or_introl|].
  { apply message_3_compose_post; try assumption; [|reflexivity]. apply reachable_nonneg, careful_reach, W. }
  exists b, w'. split; [exact H1|]. split; [exact H2|]. split; [exact H3|]. eapply keep_osc; [exact H4|reflexivity|intro; now left|now right].
Qed.
Lemma api_3p : forall msg w P, cf_stack = None -> well w -> 0 < zlen msg -> in_state SM_WAIT_M3 TH_3 PRK_3E2M (w_ctx w) = true -> openable (AM3Process true msg) (w_ctx w) ->
  sat HU (message_3_process true msg) w (fun y w' => y = OK /\ P w') ->
  exists w', do_api (AM3Process true msg) w = Ret (OK, ONone) w' /\ P w' /\ well w' /\ c_oscore_ok (w_ctx w') = true.
Proof.
  intros msg w P S W N I O H. edestruct (call_no (AM3Process true msg)) as (w' & H1 & H2 & H3 & H4); [reflexivity|discriminate|exact S|exact O|exact W|exact H| |apply tame_oscore|now apply or_introl|].
  { apply message_3_process_post; try assumption; [|reflexivity|lia]. apply reachable_nonneg, careful_reach, W. }
  exists w'. split; [exact H1|]. split; [exact H2|]. split; [exact H3|]. eapply keep_osc; [exact H4|reflexivity|intro; now left|now right].
Qed.
Lemma api_4c : forall n w P, cf_stack = None -> well w -> c_oscore_ok (w_ctx w) = true -> n <> 0 -> in_state SM_COMPLETED TH_4 PRK_4E3M (w_ctx w) = true ->
  sat HU (message_4_compose true n) w (fun y w' => fst y = OK /\ P y w') ->
  exists b w', do_api (AM4Compose true n) w = Ret (OK, OBytes b) w' /\ P (OK, b) w' /\ well w' /\ c_oscore_ok (w_ctx w') = true.
Proof.
  intros n w P S W OO N I H. edestruct (call_out (AM4Compose true n)) as (b & w' & H1 & H2 & H3 & H4); [reflexivity|discriminate|exact S|exact Logic.I|exact W|exact H| |apply tame_id|now apply or_introl|].
  { apply message_4_compose_post; try assumption; [|reflexivity]. apply reachable_nonneg, careful_reach, W. }
  exists b, w'. split; [exact H1|]. split; [exact H2|]. split; [exact H3|]. eapply keep_osc; [exact H4|reflexivity|intro; now right|now left].
Qed.
Lemma api_4p : forall msg w P, cf_stack = None -> well w -> c_oscore_ok (w_ctx w) = true -> 0 < zlen msg -> in_state SM_COMPLETED TH_4 PRK_4E3M (w_ctx w) = true -> openable (AM4Process true msg) (w_ctx w) ->
  sat HU (message_4_process true msg) w (fun y w' => y = OK /\ P w') ->
  exists w', do_api (AM4Process true msg) w = Ret (OK, ONone) w' /\ P w' /\ well w' /\ c_oscore_ok (w_ctx w') = true.
Proof.
  intros msg w P S W OO N I O H. edestruct (call_no (AM4Process true msg)) as (w' & H1 & H2 & H3 & H4); [reflexivity|discriminate|exact S|exact O|exact W|exact H| |apply tame_id|now apply or_introl|].
  { apply message_4_process_post; try assumption; [|reflexivity|lia]. apply reachable_nonneg, careful_reach, W. }
  exists w'. split; [exact H1|]. split; [exact H2|]. split; [exact H3|]. eapply keep_osc; [exact H4|reflexivity|intro; now right|now left].
Qed.
End One.
Section Start.
Context {E : env}.
Lemma values_len : forall c, 0 <= c_csuite_len c -> zlen (suite_values c) = c_csuite_len c.
Proof. intros c H. unfold suite_values, zlen. rewrite map_length, seq_length. lia. Qed.
Lemma values_int : forall c, Forall (fun x => int32 (cs_value x)) (c_csuites c) -> Forall int32 (suite_values c).
Proof.
  intros c H. unfold suite_values. apply Forall_forall. intros v Hv. apply in_map_iff in Hv as (i & <- & _).
  pose proof (nth_forall _ _ (c_csuites c) i csuite0 H) as N. apply N. apply int32_0.
Qed.
Lemma start : forall w s, prepared w s -> let c := w_ctx w in
  well w /\ limits /\ abides /\ c_tokens c = [] /\ c_peer_csuite_len c = 0 /\ c_prk_state c = PRK_INVALID /\ c_status c = SM_START /\
  c_th_state c = TH_INVALID /\ goodcid (c_cid c) /\ cs_ecc s <= cf_max_ecc /\ 1 <= c_csuite_len c /\ my_suite c = s /\
  zlen (suite_values c) = c_csuite_len c /\ Forall int32 (suite_values c) /\ last (suite_values c) 0 = cs_value s.
Proof.
  intros w s (C & F & B & HL & HA & L & MS & I1 & I2 & CB). cbv zeta. pose proof (configured_fresh _ F) as (F1 & F2 & F3 & F4 & F5 & F6 & F7 & F8 & F9 & F10).
  repeat match goal with |- _ /\ _ => split end; try assumption; try (split; assumption).
  - destruct F10 as [[T X]|[T X]]; [left|right]; (split; [exact T|]); [exact X|]. apply CB. unfold cid_rfc. now rewrite T.
  - pose proof (careful_inv HL HA w C) as I. rewrite <- MS. unfold my_suite.
    apply sf_ecc. apply nth_fits; [exact HL|]. apply (iv_suites _ I).
  - apply values_len. lia.
  - now apply values_int.
  - rewrite last_suite by assumption. rewrite <- MS. unfold my_suite, csuite_at. reflexivity.
Qed.
End Start.
Lemma cbor_pos : forall i, 0 < zlen (cbor i).
Proof. intro i. pose proof (cbor_nonempty i) as H. destruct (cbor i); [congruence|]. rewrite zlen_cons. pose proof (zlen_nonneg _ b). lia. Qed.
Lemma in_st : forall c a b d, c_status c = a -> c_th_state c = b -> c_prk_state c = d -> in_state a b d c = true.
Proof. intros c a b d <- <- <-. unfold in_state. now rewrite !Z.eqb_refl. Qed.
Lemma view_st : forall c s st m r me ci ea ts tl th ps pl prk priv publ pub pee sec pci tok,
  view c = VW s st m r me ci ea ts tl th ps pl prk priv publ pub pee sec pci tok ->
  the_suite c = s /\ c_status c = st /\ c_th_state c = ts /\ c_prk_state c = ps.
Proof. intros. unfold view in H. injection H. auto. Qed.
Lemma view_fin : forall c s st m r me ci ea ts tl th ps pl prk priv publ pub pee sec pci tok,
  view c = VW s st m r me ci ea ts tl th ps pl prk priv publ pub pee sec pci tok ->
  c_status c = st /\ c_th_state c = ts /\ th_of c = th /\ c_prk_state c = ps /\ prk_of c = prk.
Proof. intros. unfold view in H. injection H. intros. do 4 (split; [assumption|]). assumption. Qed.
Lemma opens_1 : forall me su gx ci l, int32 me -> 1 <= zlen su <= 3 -> Forall int32 su -> zlen gx < 2 ^ 64 -> goodcid ci ->
  opens_message_1 (cbor_seq (message_1_items me su gx (cid_rfc ci) l)).
Proof.
  intros me su gx ci l H1 H2 H3 H4 H5. exists me, su, gx, (cid_rfc ci), (cbor_seq (flat_map ead_items l)).
  repeat match goal with |- _ /\ _ => split end; try assumption; try apply H1; try apply H2.
  - unfold cid_within, cid_rfc. destruct H5 as [[T X]|[T X]]; rewrite T; cbn; [exact X|lia].
  - unfold message_1_items. now rewrite cbor_seq_app.
Qed.
Section Two.
Context (EI ER : env).
Variables (p : primitives) (valid : bytes -> bytes -> bytes -> Prop) (s : csuite) (me_i : creds)
  (sk_i pk_i : bytes) (me_r : creds) (sk_r pk_r : bytes) (room_i room_r : Z).
Hypothesis CO : correct p.
Hypothesis SZ : sized p s.
Hypothesis MD : modest s.
Hypothesis WI : @willing EI p valid s me_i sk_i pk_i me_r pk_r room_i.
Hypothesis WR : @willing ER p valid s me_r sk_r pk_r me_i pk_i room_r.
Lemma room_pos : forall (E : env) me sk pk peer pkp room, @willing E p valid s me sk pk peer pkp room -> 0 <= room.
Proof.
  intros E me sk pk peer pkp room W. destruct (wl_compose _ _ _ _ _ _ _ _ _ W 0 [] 0 0 ltac:(lia)) as (l & _ & _ & A & B & C).
  assert (0 <= ead_weight l); [|lia]. apply weight_nonneg. rewrite Forall_forall in *. intros k K. split; auto.
Qed.

Section Worlds.
Variables (wi wr : world) (n1 n2 n3 : Z).
Hypothesis CP : compatible EI ER wi wr s me_i me_r room_i room_r.
Hypothesis KI : initiator_static (my_method (w_ctx wi)) = true -> pk_i = p_pub p sk_i.
Hypothesis KR : responder_static (my_method (w_ctx wi)) = true -> pk_r = p_pub p sk_r.
Hypothesis N1 : 65536 <= n1.
Hypothesis N2 : 65536 <= n2.
Hypothesis N3 : 65536 <= n3.
Ltac use L H := eapply sat_conseq; [eapply L; try eassumption; try exact H; try reflexivity; try lia|].
Definition sealed {E : env} (st : Z) (ci pci : conn_id) (th prk : bytes) (w : world) : Prop :=
  @well E w /\ c_oscore_ok (w_ctx w) = true /\ goodcid ci /\ goodcid pci /\ zlen th = cs_hash s /\
  exists m r meth ea priv publ pub pee sec,
    view (w_ctx w) = VW s st m r meth ci ea TH_4 (cs_hash s) th PRK_4E3M (cs_hash s) prk priv publ pub pee sec pci [].
Theorem complete : exists wi' wr' th prk ji jr, handshake EI ER wi wr n1 n2 n3 wi' wr' /\
  @sealed EI SM_COMPLETED (c_cid (w_ctx wi)) jr th prk wi' /\ @sealed ER SM_COMPLETED (c_cid (w_ctx wr)) ji th prk wr' /\
  cid_rfc ji = cid_rfc (c_cid (w_ctx wi)) /\ cid_rfc jr = cid_rfc (c_cid (w_ctx wr)).
Proof.
  destruct CP as (PI & PR & _ & CL & CM & ME & (ix & IX1 & IX2) & HCI & HCR & EE & UI & AI & UR & AR & BI & BR & ST2).
  destruct (@start EI wi s PI) as (I1 & LI & AbI & I2 & I3 & I4 & I5 & I6 & I7 & I8 & I9 & I10 & I11 & I12 & I13). 
  destruct (@start ER wr s PR) as (R1 & LR & AbR & R2 & R3 & R4 & R5 & R6 & R7 & R8 & R9 & R10 & R11 & R12 & R13).
  pose proof (room_pos _ _ _ _ _ _ _ WI) as RI. pose proof (room_pos _ _ _ _ _ _ _ WR) as RR.
  assert (int32 (my_method (w_ctx wi))) as IM by (unfold int32; lia).
  assert (0 <= room_i <= 2 ^ 15) as RI2 by (unfold burden in BI; pose proof (zlen_nonneg _ (id_bytes me_i)); pose proof (zlen_nonneg _ (cred_bytes_of me_i)); lia).
  destruct (wl_heap _ _ _ _ _ _ _ _ _ WI) as [SI _]. destruct (wl_heap _ _ _ _ _ _ _ _ _ WR) as [SR _].
  assert (0 <= @cf_max_ead EI <= 3) as XI by (destruct LI; lia). assert (0 <= @cf_max_ead ER <= 3) as XR by (destruct LR; lia).
  set (meth := my_method (w_ctx wi)) in *.
  (* message 1, composed *)
  edestruct (@api_1c EI LI AbI n1 wi) as (m1 & wi1 & D1 & P1 & W1); [exact SI|exact I1|lia|apply in_st; assumption| |].
  { eapply sat_conseq.
    - eapply (@hv_m1_compose EI p valid s me_i sk_i pk_i me_r pk_r room_i WI SZ MD) with (meth := meth) (w := wi); try reflexivity; try assumption; try lia.
    - intros y w' H. split; [destruct H as (? & ? & ? & -> & _); reflexivity|exact H]. }
  cbv beta in P1. destruct P1 as (x & l1 & b & EQ & ZX & GL1 & LL1 & EM1 & LM1 & V1). injection EQ as <-.
  rewrite I4 in V1.
  assert (forall z, zlen (p_pub p z) = cs_ecc s) as ZP by apply SZ. assert (forall z, zlen (p_hash p (cs_hash s) z) = cs_hash s) as ZH by apply SZ.
  assert (cs_ecc s <= 2 ^ 12 /\ 0 < cs_hash s) as [EC HC] by (unfold modest in MD; lia).
  (* message 1, processed *)
  edestruct (@api_1p ER LR AbR m1 wr) as (wr1 & D2 & P2 & W2); [exact SR|exact R1|lia|apply in_st; assumption| | |].
  { cbn [openable]. rewrite EM1. apply opens_1; try assumption; [lia|]. rewrite ZP. lia. }
  { eapply sat_conseq.
    - eapply (@hv_m1_process ER p valid s me_r sk_r pk_r me_i pk_i room_r WR SZ MD) with (meth := meth) (w := wr) (m1 := m1); try reflexivity; try eassumption; try lia.
      unfold method_values. apply in_map_iff. exists (Z.to_nat ix). split; [exact IX2|]. apply in_seq. lia.
    - intros y w' [H1 H2]. split; [exact H1|exact H2]. }
  cbv beta in P2. destruct P2 as (ji & GJI & EJI & V2). rewrite R4 in V2.
  (* message 2, composed *)
  destruct (view_st _ _ _ _ _ _ _ _ _ _ _ _ _ _ _ _ _ _ _ _ _ V2) as (_ & S2a & S2b & S2c).
  edestruct (@api_2c ER LR AbR n2 wr1) as (m2 & wr2 & D3 & P3 & W3); [exact SR|exact W2|lia|apply in_st; assumption| |].
  { eapply sat_conseq.
    - eapply (@hv_m2_compose ER p valid s me_r sk_r pk_r me_i pk_i room_r WR SZ MD) with (meth := meth) (w := wr1); try exact V2; try reflexivity; try assumption; try lia. apply ZH.
    - intros y w' H. split; [destruct H as (? & ? & ? & ? & -> & _); reflexivity|exact H]. }
  cbv beta in P3. destruct P3 as (y & l2 & sg2 & b & EQ & ZY & GL2 & LL2 & WL2 & LS2 & P3). injection EQ as <-.
  cbv zeta in P3. destruct P3 as (POP2 & LP2 & LK2 & EM2 & V3).
  set (th1 := p_hash p (cs_hash s) m1) in *. set (gy := p_pub p y) in *. set (th2 := th2_of p s gy th1) in *.
  assert (p_dh p x gy = p_dh p y (p_pub p x)) as DH by apply CO.
  set (prk2 := p_extract p th2 (p_dh p y (p_pub p x))) in *.
  set (prk3 := prk_3_r p s sk_r meth th2 prk2 (p_pub p x)) in *.
  assert (prk_3_i p s meth th2 prk2 x pk_r = prk3) as PK3.
  { unfold prk3, prk_3_i, prk_3_r. destruct (responder_static meth) eqn:RS; [|reflexivity]. rewrite (KR eq_refl). now rewrite (proj1 CO). }
  destruct UR as (UR1 & (itr & TR) & UR3). destruct UI as (UI1 & (iti & TI) & UI3).
  assert (@ptxt2_of ER (c_cid (w_ctx wr)) me_r sg2 l2 = cid_b (c_cid (w_ctx wr)) ++ cbor itr ++ cbor (Bstr sg2) ++ eads l2) as EP2
    by (unfold ptxt2_of; now rewrite (@travels_sent ER _ _ TR)).
  set (ptxt2 := @ptxt2_of ER (c_cid (w_ctx wr)) me_r sg2 l2) in *.
  set (th3 := th_next p s th2 ptxt2 (cred_bytes_of me_r)) in *.
  (* message 2, processed *)
  destruct (view_st _ _ _ _ _ _ _ _ _ _ _ _ _ _ _ _ _ _ _ _ _ V1) as (S1s & S1a & S1b & S1c).
  edestruct (@api_2p EI LI AbI m2 wi1) as (wi2 & D4 & P4 & W4); [exact SI|exact W1| |apply in_st; assumption| | |].
  { rewrite EM2. unfold m2_of. apply cbor_pos. }
  { cbn [openable]. rewrite S1s. rewrite EM2. unfold m2_of. eexists _, []. rewrite app_nil_r. split; [reflexivity|].
    rewrite zlen_app, zlen_xor. unfold gy. rewrite ZP. fold gy. lia. }
  { eapply sat_conseq.
    - rewrite EM2. unfold prk2. rewrite <- DH. rewrite EP2.
      eapply (@hv_m2_process EI p valid s me_i sk_i pk_i me_r pk_r room_i WI SZ MD) with (meth := meth) (w := wi1) (rc := c_cid (w_ctx wr)) (jr := ji) (l := l2); try exact V1; try reflexivity; try assumption; try lia.
      + apply ZH.
      + intro RS. exists sk_r. apply KR. exact RS.
      + now apply AR.
      + unfold burden in BR. pose proof (zlen_nonneg _ (cred_bytes_of me_r)). lia.
      + unfold burden in BR. pose proof (zlen_nonneg _ (id_bytes me_r)). lia.
      + fold gy. fold th2. rewrite DH. fold prk2. rewrite PK3. exact POP2.
      + fold gy. fold th2. eapply (@mac_room ER); try eassumption. apply ZH.
      + rewrite <- EP2. exact LP2.
      + rewrite <- EP2. exact LK2.
    - intros z w' [H1 H2]. split; [exact H1|exact H2]. }
  cbv beta in P4. destruct P4 as (jr & GJR & EJR & V4). fold gy in V4. fold th2 in V4. rewrite DH in V4. fold prk2 in V4. rewrite PK3 in V4. rewrite <- EP2 in V4. fold th3 in V4.
  (* message 3, composed *)
  destruct (view_st _ _ _ _ _ _ _ _ _ _ _ _ _ _ _ _ _ _ _ _ _ V4) as (_ & S4a & S4b & S4c).
  edestruct (@api_3c EI LI AbI n3 wi2) as (m3 & wi3 & D5 & P5 & W5 & O5); [exact SI|exact W4|lia|apply in_st; assumption| |].
  { eapply sat_conseq.
    - eapply (@hv_m3_compose EI p valid s me_i sk_i pk_i me_r pk_r room_i WI SZ MD) with (meth := meth) (w := wi2); try exact V4; try reflexivity; try assumption; try lia.
      + apply ZH.
      + exact (conj UI1 (conj (ex_intro _ iti TI) UI3)).
    - intros z w' H. split; [destruct H as (? & ? & ? & -> & _); reflexivity|exact H]. }
  cbv beta in P5. destruct P5 as (l3 & sg3 & b & EQ & GL3 & LL3 & WL3 & LS3 & P5). injection EQ as <-.
  cbv zeta in P5. destruct P5 as (POP3 & LP3 & EM3 & V5). rewrite (@travels_sent EI _ _ TI) in LP3, EM3, V5.
  set (ptxt3 := cbor iti ++ cbor (Bstr sg3) ++ eads l3) in *.
  set (prk4 := prk_4_i p s sk_i meth th3 prk3 gy) in *.
  assert (prk_4_r p s meth th3 prk3 y pk_i = prk4) as PK4.
  { unfold prk4, prk_4_i, prk_4_r. destruct (initiator_static meth) eqn:IS; [|reflexivity]. rewrite (KI eq_refl). unfold gy. now rewrite (proj1 CO). }
  (* message 3, processed *)
  destruct (view_st _ _ _ _ _ _ _ _ _ _ _ _ _ _ _ _ _ _ _ _ _ V3) as (_ & S3a & S3b & S3c).
  edestruct (@api_3p ER LR AbR m3 wr2) as (wr3 & D6 & P6 & W6 & O6); [exact SR|exact W3| |apply in_st; assumption|exact Logic.I| |].
  { rewrite EM3. unfold m3_of. cbv zeta. apply cbor_pos. }
  { eapply sat_conseq.
    - rewrite EM3.
      eapply (@hv_m3_process ER p valid s me_r sk_r pk_r me_i pk_i room_r WR SZ MD) with (meth := meth) (w := wr2) (ii := c_cid (w_ctx wi)) (ji := jr) (l := l3); try exact V3; try reflexivity; try eassumption; try lia.
      + apply ZH.
      + intro IS. exists sk_i. apply KI. exact IS.
      + now apply AI.
      + unfold burden in BI. pose proof (zlen_nonneg _ (cred_bytes_of me_i)). lia.
      + unfold burden in BI. pose proof (zlen_nonneg _ (id_bytes me_i)). lia.
      + rewrite PK4. exact POP3.
      + eapply (@mac_room EI); try eassumption. apply ZH.
    - intros z w' [H1 H2]. split; [exact H1|exact H2]. }
  cbv beta in P6. fold ptxt3 in P6. rewrite PK4 in P6.
  exists wi3, wr3, (th_next p s th3 ptxt3 (cred_bytes_of me_i)), prk4, ji, jr.
  assert (zlen (th_next p s th3 ptxt3 (cred_bytes_of me_i)) = cs_hash s) as ZN by apply ZH.
  split; [|split; [|split; [|split; assumption]]].
  - exists m1, m2, m3, wi1, wr1, wr2, wi2. repeat (split; [assumption|]). assumption.
  - do 5 (split; [assumption|]). do 9 eexists. exact V5.
  - do 5 (split; [assumption|]). do 9 eexists. exact P6.
Qed.
End Worlds.
End Two.
Theorem cooperative_complete : forall EI ER wi wr s me_i me_r n1 n2 n3, cooperative EI ER wi wr s me_i me_r ->
  65536 <= n1 -> 65536 <= n2 -> 65536 <= n3 -> exists wi' wr', handshake EI ER wi wr n1 n2 n3 wi' wr' /\ established wi' wr'.
Proof.
  intros EI ER wi wr s me_i me_r n1 n2 n3 (p & valid & ski & pki & skr & pkr & ri & rr & C & Z & WI & WR & KI & KR & CP) N1 N2 N3.
  assert (modest s) as MD by apply CP.
  destruct (complete EI ER p valid s me_i ski pki me_r skr pkr ri rr C Z MD WI WR wi wr n1 n2 n3 CP KI KR N1 N2 N3)
    as (wi' & wr' & th & prk & ji & jr & H & (_ & _ & _ & _ & _ & A) & (_ & _ & _ & _ & _ & B) & _).
  destruct A as (? & ? & ? & ? & ? & ? & ? & ? & ? & A). destruct B as (? & ? & ? & ? & ? & ? & ? & ? & ? & B).
  pose proof (view_fin _ _ _ _ _ _ _ _ _ _ _ _ _ _ _ _ _ _ _ _ _ A) as (A1 & A2 & A3 & A4 & A5).
  pose proof (view_fin _ _ _ _ _ _ _ _ _ _ _ _ _ _ _ _ _ _ _ _ _ B) as (B1 & B2 & B3 & B4 & B5).
  exists wi', wr'. split; [exact H|]. unfold established. cbv zeta. rewrite A3, A5, B3, B5.
  do 4 (split; [assumption|]). split; [reflexivity|]. do 2 (split; [assumption|]). reflexivity.
Qed.
