(** Message 3 between willing parties. *)
From Verif Require Import Monad Api Common Msg1 Msg2 Msg3 Rfc Uses Conform Received Sessions Safety
  Facts Logic Sym CborProofs RfcProofs CodecProofs RoundTrip Steps Steps2 Steps3 Claims3 Agree Ready ReadyStep ReadyLib ReadyMac ReadyWire ReadyMsg ReadyRead Ready2.

Section Triples.
Context {E : env}.
Variables (p : primitives) (valid : bytes -> bytes -> bytes -> Prop) (s : csuite) (me : creds)
  (sk pk : bytes) (peer : creds) (pkp : bytes) (room : Z).
Hypothesis HW : willing p valid s me sk pk peer pkp room.
Hypothesis SZ : sized p s.
Hypothesis MD : modest s.
Lemma z_heap : 0 <= cf_sizeof_mac. Proof. now destruct (wl_heap _ _ _ _ _ _ _ _ _ HW). Qed.
Let z_hash : forall x, zlen (p_hash p (cs_hash s) x) = cs_hash s. Proof. apply SZ. Qed.
Let z_ext : forall x y, zlen (p_extract p x y) = cs_hash s. Proof. apply SZ. Qed.
Let z_exp : forall x i n, 0 < n -> zlen (p_expand p x i n) = n. Proof. apply SZ. Qed.
Let z_pub : forall x, zlen (p_pub p x) = cs_ecc s. Proof. apply SZ. Qed.
Let z_dh : forall x y, zlen (p_dh p x y) = cs_ecc s. Proof. apply SZ. Qed.
Let z_enc : forall k n a x, zlen (p_enc p k n a x) = zlen x + cs_tag s. Proof. apply SZ. Qed.
Ltac md := pose proof z_heap as MDz; pose proof MD as MD'; unfold modest in MD';
  destruct MD' as (MDh & MDm & MDk & MDi & MDe & MDs & MDt & MDx & MDy).
Ltac zl := rewrite ?z_hash, ?z_ext, ?z_pub, ?z_dh, ?z_enc, ?Z.eqb_refl; cbn [negb orb andb].
Ltac use L H := eapply sat_conseq; [eapply L; try exact HW; try exact SZ; try exact MD; try exact H; try eassumption; try reflexivity; try lia|].
Ltac step c t H := let y := fresh "y" in intros y [c t]; cbn [w_ctx]; intros [-> H]; shut; reopen H; hys.
(** The third flight, as values. *)
Definition m3_of (prk3 th3 ptxt : bytes) : bytes :=
  cbor (Bstr (p_enc p (p_expand p prk3 (info K_3 th3 (cs_key s)) (cs_key s)) (p_expand p prk3 (info IV_3 th3 (cs_iv s)) (cs_iv s)) (aad th3) ptxt)).
Section V1.
Variables (st m r meth : Z) (ci : conn_id) (ea : ead_fns) (ts tl : Z) (th : bytes) (ps pl : Z)
  (prk priv : bytes) (publ : Z) (pub pee sec : bytes) (pci : conn_id) (tok : list token).
Local Notation V0 := (VW s st m r meth ci ea ts tl th ps pl prk priv publ pub pee sec pci tok).
Lemma hv_m3_compose : forall n y w, view (w_ctx w) = V0 ->
  st = SM_VERIFIED_M2 -> ts = TH_3 -> ps = PRK_3E2M -> tok = [] -> tl = cs_hash s -> zlen th = tl -> pl = cs_hash s ->
  pee = p_pub p y -> 0 <= meth <= 3 -> goodcid ci -> goodcid pci -> 0 <= cf_max_ead <= 3 -> 0 <= room -> usable me -> burden me room <= 2 ^ 15 -> 65536 <= n ->
  sat HU (message_3_compose true n) w (fun z w' => exists l sg m3, z = (OK, m3) /\ goodtoks l /\ zlen l <= cf_max_ead /\
    ead_weight l <= room /\ 0 < zlen sg <= 2 ^ 12 /\
    let prk4 := prk_4_i p s sk meth th prk pee in
    let ptxt := id_sent me ++ cbor (Bstr sg) ++ eads l in
    pop valid MSG_3 meth th l pk me (mac_val p s MSG_3 INITIATOR meth ci th prk4 pci l me) sg /\
    0 < zlen ptxt <= 50000 /\ m3 = m3_of prk th ptxt /\
    view (w_ctx w') = VW s SM_COMPLETED MSG_3 INITIATOR meth ci ea TH_4 (cs_hash s) (th_next p s th ptxt (cred_bytes_of me)) PRK_4E3M (cs_hash s) prk4 priv publ pub pee sec pci []).
Proof.
  md. intros n y [c t] HV ST TS PS T TL ZT PL PE ME GC GJ CE RM U B N. cbn [w_ctx] in *. openv HV.
  unfold message_3_compose, enter, in_state. hys.
  match goal with |- sat _ _ (Wd ?q _) _ => assert (view q = VW s SM_ABORTED MSG_3 INITIATOR meth ci ea ts tl th ps pl prk priv publ pub pee sec pci tok) as HV5 by vfin;
    generalize dependent q; intros c1 HV5 end.
  assert (aad_len_of c = 11 + (tl + bstr_oh tl)) as AL by (unfold aad_len_of; rewrite Vtl; change (tstr_oh 9) with 1; lia).
  pose proof (bstr_oh_le tl ltac:(lia)) as OH. rewrite AL.
  use hv_compose HV5; [unfold burden in B; pose proof (zlen_nonneg _ (id_bytes me)); pose proof (zlen_nonneg _ (cred_bytes_of me)); lia|].
  intros q [c6 t6]. cbn [w_ctx]. intros (-> & l & GL & LL & WL & HV6). shut. reopen HV6. hys.
  use hv_keys_3 HV6. step c6' t6' HV6'.
  use hv_prk_4_i HV6'; [now exists y|]. step c7 t7 HV7.
  set (prk4 := prk_4_i p s sk meth th prk pee) in *.
  assert (macable s MSG_3 INITIATOR ci ts tl th pci l me) as MB.
  { unfold burden in B. pose proof (zlen_nonneg _ (id_bytes me)); pose proof (zlen_nonneg _ (cred_bytes_of me)). constructor; [now left|now right|split; [assumption|lia]|exact GJ|exact U|lia|lia|exact GL]. }
  assert (zlen (mac_buf MSG_3 INITIATOR ci th pci l me) <= 65535) as BUF by (eapply mac_room; try eassumption; lia).
  assert (msg23 MSG_3 meth) as M23 by (split; [now right|exact ME]).
  assert (mac_size MSG_3 INITIATOR ci th pci l me <= 2 ^ 19) as SML by (eapply Z.le_trans; [eapply mac_small; eassumption|lia]).
  use hv_mac_len HV7. intros q [c8 t8] [E8 (ml & -> & ML)]. injection E8 as -> ->. hys.
  use hv_mac_ctx HV7. intros q [c8 t8] [E8 (mc & -> & MP & PLN)]. injection E8 as -> ->. cbn [w_ctx] in MP. hys.
  assert (mac_vals MSG_3 INITIATOR ci th pci l me mc) as MV by (eapply mac_post_vals; eassumption).
  use hv_mac_length HV7. intros q [c8 t8] [E8 ->]. injection E8 as -> ->.
  assert (0 < mac_length s (stat MSG_3 meth) <= 2 ^ 12 /\ mac_length s (stat MSG_3 meth) <= 255 * cs_hash s) as MLP by (eapply ml_pos; eassumption). hys.
  use hv_comp_mac HV7. step c8 t8 HV8.
  use hv_sig_length HV8. intros q [c9 t9] [E9 ->]. injection E9 as -> ->.
  assert (0 < sig_length s MSG_3 meth <= 2 ^ 12) as SGL by (unfold sig_length; destruct (stat MSG_3 meth); lia). hys.
  use hv_sign HV8. intros q [c9 t9]. cbn [w_ctx]. intros [HV9 (sg & -> & SG & PO)]. shut. reopen HV9. hys.
  use hv_plaintext_len HV9; [apply (mb_id _ _ _ _ _ _ _ _ _ _ MB)|]. intros q [c10 t10] [E10 (n2 & -> & NN & NP)]. injection E10 as -> ->. hys.
  use hv_plaintext_3 HV9. intros q [c10 t10] [E10 ->]. injection E10 as -> ->. hys.
  set (ptxt := id_sent me ++ cbor (Bstr sg) ++ eads l).
  assert (0 < zlen ptxt <= 50000) as PT1.
  { subst ptxt. assert (0 <= zlen (eads l) <= room) by (assert (zlen (eads l) <= ead_weight l) by (eapply weigh; eassumption); pose proof (zlen_nonneg _ (eads l)); lia). rewrite !zlen_app, zlen_bstr_oh by lia.
    assert (1 <= bstr_oh (zlen sg) <= 3) by (apply bstr_oh_le; lia). assert (zlen (id_sent me) <= zlen (id_bytes me)) by (eapply sent_small; eassumption).
    unfold burden in B.
    pose proof (zlen_nonneg _ (id_sent me)). pose proof (zlen_nonneg _ (cred_bytes_of me)). lia. }
  hys.
  use hv_encrypt HV9; [rewrite z_exp; lia|rewrite z_exp; lia|]. step c10 t10 HV10.
  assert (mc_cred mc = cred_bytes_of me) as MC by apply MV. pose proof (mb_cred _ _ _ _ _ _ _ _ _ _ MB) as CL. unfold comp_th_4.
  use hv_th_next HV10; [rewrite MC; lia|]. rewrite MC. step c11 t11 HV11.
  use hv_gen_3 HV11; [rewrite z_enc; lia|]. intros q [c12 t12] [E12 ->]. injection E12 as -> ->. hys.
  apply sat_ret. exists l, sg, (m3_of prk th ptxt). split; [reflexivity|]. do 3 (split; [assumption|]). split; [lia|]. cbv zeta.
  split; [exact PO|]. split; [exact PT1|]. split; [reflexivity|]. rewrite PL in Vpl. vfin.
Qed.

Lemma hv_m3_process : forall ii ji sg l it w, view (w_ctx w) = V0 -> correct p ->
  st = SM_WAIT_M3 -> ts = TH_3 -> ps = PRK_3E2M -> tok = [] -> tl = cs_hash s -> zlen th = tl -> pl = cs_hash s -> 0 <= meth <= 3 ->
  (initiator_static meth = true -> exists k, pkp = p_pub p k) -> goodcid ci ->
  goodtoks l -> 0 < zlen sg <= 2 ^ 12 -> travels peer it -> admits it ->
  zlen (id_bytes peer) <= 2 ^ 15 -> zlen (cred_bytes_of peer) <= 2 ^ 15 ->
  let prk4 := prk_4_r p s meth th prk priv pkp in let ptxt := cbor it ++ cbor (Bstr sg) ++ eads l in
  pop valid MSG_3 meth th l pkp peer (mac_val p s MSG_3 INITIATOR meth ii th prk4 ji l peer) sg ->
  zlen (mac_buf MSG_3 INITIATOR ii th ji l peer) <= 65535 ->
  0 < zlen ptxt <= 50000 ->
  sat HU (message_3_process true (m3_of prk th ptxt)) w (fun z w' => z = OK /\
    view (w_ctx w') = VW s SM_COMPLETED MSG_3 RESPONDER meth ci ea TH_4 (cs_hash s) (th_next p s th ptxt (cred_bytes_of peer)) PRK_4E3M (cs_hash s) prk4
      (if initiator_static meth then [] else priv) publ pub pee sec pci []).
Proof.
  md. intros ii ji sg l it [c t] HV [_ CP] ST TS PS T TL ZT PL ME HK GC GL LS TR AD BI BC prk4 ptxt PO BUF PT1. cbn [w_ctx] in *. openv HV.
  unfold message_3_process, enter, in_state, m3_of.
  set (ct := p_enc p _ _ _ ptxt).
  assert (zlen ct = zlen ptxt + cs_tag s) as ZC by apply z_enc.
  assert (0 < zlen (cbor (Bstr ct))) as MP0 by (pose proof (bstr_le ct); lia).
  hys. rewrite one_bstr_rt by lia. hys.
  match goal with |- sat _ _ (Wd ?q _) _ => assert (view q = VW s SM_ABORTED MSG_3 RESPONDER meth ci ea ts tl th ps pl prk priv publ pub pee sec pci tok) as HV5 by vfin;
    generalize dependent q; intros c1 HV5 end.
  assert (aad_len_of c = 11 + (tl + bstr_oh tl)) as AL by (unfold aad_len_of; rewrite Vtl; change (tstr_oh 9) with 1; lia).
  pose proof (bstr_oh_le tl ltac:(lia)) as OH. rewrite AL. shut. reopen HV5. hys.
  use hv_keys_3 HV5. step c6 t6 HV6.
  assert (size_sub (zlen ct) (cs_tag s) = zlen ptxt) as SB by (unfold size_sub; rewrite ZC, Z.mod_small; lia). rewrite SB. hys.
  eapply sat_conseq; [eapply hv_decrypt with (x := ptxt); first [exact HW|exact SZ|exact MD|exact HV6|apply CP|rewrite z_exp; lia|lia|reflexivity]|]. step c7 t7 HV7.
  pose proof (sent_le _ _ TR) as SL.
  assert (0 < zlen (cbor it)) as ZI by (pose proof (zlen_nonneg _ (cbor it)); destruct (Z.eq_dec (zlen (cbor it)) 0) as [Q|]; [apply zlen_0, cbor_nonempty in Q; contradiction|lia]).
  subst ptxt.
  use hv_read_3 HV7.
  intros q [c8 t8]. cbn [w_ctx]. intros (cr0 & l' & -> & TR0 & GL' & EL & HV8). shut. reopen HV8. hys.
  use hv_process HV8. step c9 t9 HV9.
  eapply hy_cverify; [exact HW|exact TR|exact TR0|]. intros cr' U' IB CB. hys.
  set (ptxt := cbor it ++ cbor (Bstr sg) ++ eads l) in *.
  use hv_prk_4_r HV9. intros q [c10 t10]. cbn [w_ctx]. intros [-> HV10]. fold prk4 in HV10. shut. reopen HV10. hys.
  assert (macable s MSG_3 RESPONDER ci ts tl th pci l' cr') as MB.
  { constructor; [now right|now right|now split|exact GC|exact U'|rewrite IB; lia|rewrite CB; lia|exact GL']. }
  assert (eads l' = eads l) as EQL by (unfold eads; now rewrite EL).
  assert (mac_buf MSG_3 INITIATOR ii th ji l peer = mac_buf MSG_3 RESPONDER ci th pci l' cr') as EB by (unfold mac_buf; change (MSG_3 =? MSG_2) with false; rewrite EQL, IB, CB; reflexivity).
  assert (mac_val p s MSG_3 INITIATOR meth ii th prk4 ji l peer = mac_val p s MSG_3 RESPONDER meth ci th prk4 pci l' cr') as EM by (unfold mac_val; rewrite EB; reflexivity).
  assert (pop valid MSG_3 meth th l' pkp cr' (mac_val p s MSG_3 RESPONDER meth ci th prk4 pci l' cr') sg) as PO'.
  { rewrite <- EM. unfold pop, sig_in in *. rewrite EQL, IB, CB. exact PO. }
  rewrite EB in BUF.
  assert (msg23 MSG_3 meth) as M23 by (split; [now right|exact ME]).
  assert (mac_size MSG_3 RESPONDER ci th pci l' cr' <= 2 ^ 19) as SML by (eapply Z.le_trans; [eapply mac_small; eassumption|lia]).
  use hv_mac_len HV10. intros q [c11 t11] [E8 (ml & -> & ML)]. injection E8 as -> ->. hys.
  use hv_mac_ctx HV10. intros q [c11 t11] [E8 (mc & -> & MP & PLN)]. injection E8 as -> ->. cbn [w_ctx] in MP. hys.
  assert (mac_vals MSG_3 RESPONDER ci th pci l' cr' mc) as MV by (eapply mac_post_vals; eassumption).
  use hv_mac_length HV10. intros q [c11 t11] [E8 ->]. injection E8 as -> ->.
  assert (0 < mac_length s (stat MSG_3 meth) <= 2 ^ 12 /\ mac_length s (stat MSG_3 meth) <= 255 * cs_hash s) as MLP by (eapply ml_pos; eassumption). hys.
  use hv_comp_mac HV10. step c11 t11 HV11.
  use hv_verify HV11; [apply (wl_pub _ _ _ _ _ _ _ _ _ HW)|]. step c12 t12 HV12.
  assert (mc_cred mc = cred_bytes_of peer) as MC by (rewrite <- CB; apply MV). unfold comp_th_4.
  use hv_th_next HV12; [rewrite MC; lia|]. rewrite MC. step c13 t13 HV13.
  rewrite PL in Vpl. apply sat_ret. split; [reflexivity|]. vfin.
Qed.
End V1.
End Triples.
