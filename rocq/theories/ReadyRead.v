(** Reading plaintexts, keys, AEAD and EAD of a willing party. *)
From Verif Require Import Monad Api Common Msg1 Msg2 Msg3 Rfc Uses Conform Received Sessions Safety
  Facts Logic Sym CborProofs RfcProofs CodecProofs RoundTrip Steps Steps2 Steps3 Claims3 Agree Ready ReadyStep ReadyLib ReadyMac ReadyWire.

Section Triples.
Context {E : env}.
Variables (p : primitives) (valid : bytes -> bytes -> bytes -> Prop) (s : csuite) (me : creds)
  (sk pk : bytes) (peer : creds) (pkp : bytes) (room : Z).
Hypothesis HW : willing p valid s me sk pk peer pkp room.
Hypothesis SZ : sized p s.
Hypothesis MD : modest s.
Lemma z_heap : 0 <= cf_sizeof_mac. Proof. now destruct (wl_heap _ _ _ _ _ _ _ _ _ HW). Qed.
Let z_hash : forall x, zlen (p_hash p (cs_hash s) x) = cs_hash s. Proof. apply SZ. Qed.
Let z_ext : forall x y, zlen (p_extract p x y) = cs_hash s. Proof. apply SZ. Qed.
Let z_exp : forall x i n, 0 < n -> zlen (p_expand p x i n) = n. Proof. apply SZ. Qed.
Let z_pub : forall x, zlen (p_pub p x) = cs_ecc s. Proof. apply SZ. Qed.
Let z_dh : forall x y, zlen (p_dh p x y) = cs_ecc s. Proof. apply SZ. Qed.
Let z_enc : forall k n a x, zlen (p_enc p k n a x) = zlen x + cs_tag s. Proof. apply SZ. Qed.
Ltac md := pose proof z_heap as MDz; pose proof MD as MD'; unfold modest in MD';
  destruct MD' as (MDh & MDm & MDk & MDi & MDe & MDs & MDt & MDx & MDy).
Ltac zl := rewrite ?z_hash, ?z_ext, ?z_pub, ?z_dh, ?z_enc, ?Z.eqb_refl; cbn [negb orb andb].
Section V2.
Variables (st m r meth : Z) (ci : conn_id) (ea : ead_fns) (ts tl : Z) (th : bytes) (ps pl : Z)
  (prk priv : bytes) (publ : Z) (pub pee sec : bytes) (pci : conn_id) (tok : list token).
Local Notation V0 := (VW s st m r meth ci ea ts tl th ps pl prk priv publ pub pee sec pci tok).
(** The identifier [i] of a peer whose messages carry [cr]. *)
Lemma cid_ok_good : forall i, goodcid i -> cid_ok (cid_rfc i).
Proof.
  intros i H. unfold cid_rfc. destruct H as [[-> V]|[-> V]]; [exact V|]. change (CID_BSTR =? CID_INT) with false. cbn [cid_ok]. lia.
Qed.
Lemma hv_store_cid : forall i ic w, view (w_ctx w) = V0 -> goodcid i -> holds_cid (cid_rfc i) -> cid_read ic = cid_rfc i ->
  sat HU (store_peer_cid ic) w (fun y w' => y = OK /\ exists j, goodcid j /\ cid_rfc j = cid_rfc i /\
    view (w_ctx w') = VW s st m r meth ci ea ts tl th ps pl prk priv publ pub pee sec j tok).
Proof.
  intros i ic [c t] HV G H R. cbn [w_ctx] in HV. openv HV. unfold store_peer_cid. pose proof (cid_ok_good i G) as CO. rewrite <- R in *.
  destruct ic as [v|b]; cbn [cid_read cid_ok] in *.
  - rewrite i8_range by assumption. hys. apply sat_ret. split; [reflexivity|].
    exists (CID CID_INT v (cid_bstr pci)). split; [now left|]. split; [reflexivity|]. vfin.
  - specialize (H b eq_refl). hys. apply sat_ret. split; [reflexivity|].
    exists (CID CID_BSTR (cid_int pci) b). split; [|split; [reflexivity|vfin]].
    right. split; [reflexivity|]. cbn [cid_bstr]. unfold cid_rfc in R. destruct G as [[T V]|[T V]]; rewrite T in R; [discriminate|].
    change (CID_BSTR =? CID_INT) with false in R. now injection R as ->.
Qed.
End V2.
Section V3.
Variables (st m r meth : Z) (ci : conn_id) (ea : ead_fns) (ts tl : Z) (th : bytes) (ps pl : Z)
  (prk priv : bytes) (publ : Z) (pub pee sec : bytes) (pci : conn_id) (tok : list token).
Local Notation V0 := (VW s st m r meth ci ea ts tl th ps pl prk priv publ pub pee sec pci tok).
Lemma hv_store_tokens : forall l w, view (w_ctx w) = V0 -> tok = [] ->
  sat HU (store_tokens l) w (fun y w' => view (w_ctx w') = VW s st m r meth ci ea ts tl th ps pl prk priv publ pub pee sec pci l).
Proof.
  intros l [c t] HV T. cbn [w_ctx] in HV. openv HV. unfold store_tokens. destruct (zlen l =? 0) eqn:Z0.
  - apply sat_ret. apply Z.eqb_eq, zlen_0 in Z0. rewrite T in Vtok. subst l. vfin.
  - hys. vfin.
Qed.
End V3.
Section V4.
Variables (st m r meth : Z) (ci : conn_id) (ea : ead_fns) (ts tl : Z) (th : bytes) (ps pl : Z)
  (prk priv : bytes) (publ : Z) (pub pee sec : bytes) (pci : conn_id) (tok : list token).
Local Notation V0 := (VW s st m r meth ci ea ts tl th ps pl prk priv publ pub pee sec pci tok).
(** [cr] as the sender has it, [cr0] as the receiver reads it. *)
Lemma hv_read_2 : forall cr i ic sg l w, view (w_ctx w) = V0 -> tok = [] -> travels cr i -> zlen (cbor i) <= 2 ^ 15 -> admits i ->
  goodcid ic -> holds_cid (cid_rfc ic) -> zlen sg <= 65535 -> goodtoks l ->
  sat HU (parse_plaintext_2 (cid_b ic ++ cbor i ++ cbor (Bstr sg) ++ eads l)) w (fun y w' => exists cr0 j l',
    y = (OK, (cr0, sg)) /\ travels cr0 i /\ goodcid j /\ cid_rfc j = cid_rfc ic /\ goodtoks l' /\ map ead_of l' = map ead_of l /\
    view (w_ctx w') = VW s st m r meth ci ea ts tl th ps pl prk priv publ pub pee sec j l').
Proof.
  intros cr i ic sg l w HV T TR L A G H LS GL. unfold parse_plaintext_2.
  destruct (id_read cr i TR ltac:(lia) A) as (iv & cr0 & W & TR0 & RD).
  destruct (plaintext_2_fits cf_canon (cid_rfc ic) i iv sg (map ead_of l)) as (d & D & D1 & D2 & D3 & D4 & D5).
  - now apply cid_ok_good.
  - exact W.
  - lia.
  - now apply good_fits.
  - destruct GL as (_ & N & _). unfold zlen in *. now rewrite map_length.
  - fold (cid_b ic) (eads l) in D. rewrite D. destruct (cid_parts ic G) as (_ & _ & C3). 
    replace (zlen (cid_b ic ++ cbor i ++ cbor (Bstr sg) ++ eads l) =? 0) with false by (rewrite zlen_app; pose proof (zlen_nonneg _ (cbor i ++ cbor (Bstr sg) ++ eads l)); lia).
    apply sat_bind. eapply sat_conseq; [eapply hv_store_cid; eassumption|]. intros y w1 (-> & j & J1 & J2 & HV1). cbv beta iota. change (negb (OK =? OK)) with false. cbv iota.
    apply sat_bind. rewrite D2. eapply sat_conseq; [apply RD|]. intros y w2 [-> ->]. cbv beta iota. change (negb (OK =? OK)) with false. cbv iota.
    apply sat_bind. eapply sat_conseq; [eapply hv_store_tokens; [exact HV1|exact T]|]. intros y w2 HV2. apply sat_ret.
    exists cr0, j, (pt_ead d). rewrite D3. destruct (same_toks _ l D5 GL D4) as [GT _].
    split; [reflexivity|]. split; [exact TR0|]. split; [exact J1|]. split; [exact J2|]. split; [exact GT|]. split; [exact D4|exact HV2].
Qed.
Lemma hv_read_3 : forall cr i sg l w, view (w_ctx w) = V0 -> tok = [] -> travels cr i -> 0 < zlen (cbor i) <= 2 ^ 15 -> admits i ->
  zlen sg <= 65535 -> goodtoks l ->
  sat HU (parse_plaintext_3 (cbor i ++ cbor (Bstr sg) ++ eads l)) w (fun y w' => exists cr0 l',
    y = (OK, (cr0, sg)) /\ travels cr0 i /\ goodtoks l' /\ map ead_of l' = map ead_of l /\
    view (w_ctx w') = VW s st m r meth ci ea ts tl th ps pl prk priv publ pub pee sec pci l').
Proof.
  intros cr i sg l w HV T TR L A LS GL. unfold parse_plaintext_3.
  destruct (id_read cr i TR ltac:(lia) A) as (iv & cr0 & W & TR0 & RD).
  destruct (plaintext_3_fits cf_canon i iv sg (map ead_of l)) as (d & D & D2 & D3 & D4 & D5).
  - exact W.
  - lia.
  - now apply good_fits.
  - destruct GL as (_ & N & _). unfold zlen in *. now rewrite map_length.
  - fold (eads l) in D. rewrite D.
    replace (zlen (cbor i ++ cbor (Bstr sg) ++ eads l) =? 0) with false by (rewrite zlen_app; pose proof (zlen_nonneg _ (cbor (Bstr sg) ++ eads l)); lia).
    apply sat_bind. rewrite D2. eapply sat_conseq; [apply RD|]. intros y w2 [-> ->]. cbv beta iota. change (negb (OK =? OK)) with false. cbv iota.
    apply sat_bind. eapply sat_conseq; [eapply hv_store_tokens; [exact HV|exact T]|]. intros y w2 HV2. apply sat_ret.
    exists cr0, (pt_ead d). rewrite D3. destruct (same_toks _ l D5 GL D4) as [GT _].
    split; [reflexivity|]. split; [exact TR0|]. split; [exact GT|]. split; [exact D4|exact HV2].
Qed.
Lemma hv_expand_part : forall len label n w, view (w_ctx w) = V0 -> zlen th = cs_hash s -> 0 <= label <= 65535 -> 0 < n <= cs_key s ->
  int_mem_req label + (cs_hash s + bstr_oh (cs_hash s)) + int_mem_req (i32 (cs_key s)) <= len ->
  sat HU (expand_part len label n) w (fun y w' => y = (OK, p_expand p prk (info label th n) n) /\ view (w_ctx w') = V0).
Proof.
  md. intros len label n [c t] HV T L N LE. pose proof HV as HV'. cbn [w_ctx] in HV'. openv HV'. unfold expand_part.
  destruct (info_len label th n ltac:(lia)) as [I1 I2]; [lia|lia|].
  assert (int_mem_req (i32 n) <= int_mem_req (i32 (cs_key s))).
  { rewrite !i32_id by lia. unfold int_mem_req. repeat match goal with |- context [if ?b then _ else _] => destruct b eqn:? end; lia. }
  hys. rewrite I1, fits_ok by (rewrite I2, T; lia). hys. apply sat_ret. split; [|exact HV].
  rewrite blit_zeros_exact by (apply z_exp; lia). reflexivity.
Qed.
Lemma zlen_aad : forall x, zlen x <= 65535 -> zlen (aad x) = 11 + (zlen x + bstr_oh (zlen x)).
Proof.
  intros x L. change (aad x) with (take 11 (aad []) ++ cbor (Bstr x) ++ []). rewrite !zlen_app, zlen_bstr_oh by assumption.
  change (zlen (take 11 (aad []))) with 11. change (zlen (@nil Z)) with 0. lia.
Qed.
Lemma hv_keys_3 : forall w, view (w_ctx w) = V0 -> ts = TH_3 -> tl = cs_hash s -> zlen th = tl ->
  sat HU (comp_key_iv_aad_3 (cs_key s) (cs_iv s) (11 + (tl + bstr_oh tl))) w (fun y w' =>
    y = (OK, (p_expand p prk (info K_3 th (cs_key s)) (cs_key s), p_expand p prk (info IV_3 th (cs_iv s)) (cs_iv s), aad th)) /\
    view (w_ctx w') = V0).
Proof.
  md. intros [c t] HV T1 T2 T3. pose proof HV as HV'. cbn [w_ctx] in HV'. openv HV'. unfold comp_key_iv_aad_3, key_iv_aad.
  assert (1 <= bstr_oh tl <= 3) by (apply bstr_oh_le; lia). pose proof (imr_le L_IV_3). pose proof (imr_le (i32 (cs_key s))). change (int_mem_req L_IV_3) with 1 in *.
  hys. eapply sat_conseq; [apply (hv_expand_part _ L_K_3 (cs_key s)); [exact HV|lia|vm_compute; split; discriminate|lia|rewrite T2; change (int_mem_req L_K_3) with 1; lia]|].
  intros y [c1 t1] [-> HV1]. cbn [w_ctx] in HV1. reopen HV1. hys.
  eapply sat_conseq; [apply (hv_expand_part _ L_IV_3 (cs_iv s)); [exact HV1|lia|vm_compute; split; discriminate|lia|rewrite T2; change (int_mem_req L_IV_3) with 1; lia]|].
  intros y [c2 t2] [-> HV2]. cbn [w_ctx] in HV2. reopen HV2. hys.
  rewrite enc_enc_structure_rfc. fold (aad th). pose proof (zlen_aad th ltac:(lia)) as ZA. rewrite T3 in ZA. rewrite fits_ok by lia. rewrite arr_read_exact by lia.
  apply sat_ret. split; [reflexivity|exact HV2].
Qed.
Lemma hv_encrypt : forall key iv ad x w, view (w_ctx w) = V0 -> 0 < zlen key -> 0 < zlen iv -> 0 < zlen ad -> 0 < zlen x ->
  sat HU (comp_ciphertext key iv ad x (zlen x + cs_tag s)) w (fun y w' => y = (OK, p_enc p key iv ad x) /\ view (w_ctx w') = V0).
Proof.
  md. intros key iv ad x [c t] HV L1 L2 L3 L4. unfold comp_ciphertext, aead_encrypt. hys. apply sat_ret. split; [reflexivity|exact HV].
Qed.
Lemma hv_decrypt : forall key iv ad ct x n w, view (w_ctx w) = V0 -> 0 < zlen key -> 0 < zlen iv -> 0 < zlen ad -> 0 < zlen ct -> 0 < zlen x -> n = zlen x ->
  p_dec p key iv ad ct = Some x ->
  sat HU (decrypt_ciphertext_3 key iv ad ct n) w (fun y w' => y = (OK, x) /\ view (w_ctx w') = V0).
Proof.
  md. intros key iv ad ct x n [c t] HV L1 L2 L3 L4 L5 -> D. unfold decrypt_ciphertext_3, aead_decrypt. hys.
  eapply hy_decrypt; [eassumption|keyat|exact D|lia|]. cbn [w_ctx w_tr]. hys. apply sat_ret. split; [reflexivity|exact HV].
Qed.
Lemma hv_gen_3 : forall ct n w, 0 < zlen ct <= 65000 -> 65536 <= n ->
  sat HU (gen_msg_3 ct n) w (fun y w' => w' = w /\ y = (OK, cbor (Bstr ct))).
Proof.
  intros ct n w L N. unfold gen_msg_3. assert (1 <= bstr_oh (zlen ct) <= 3) by (apply bstr_oh_le; lia).
  hys. pose proof (zlen_enc_bstr ct ltac:(lia)). rewrite fits_ok by lia. apply sat_bind. apply sat_check; [lia|]. intros _.
  apply sat_ret. split; [reflexivity|]. now rewrite enc_bstr_rfc.
Qed.
Lemma hv_compose : forall w, view (w_ctx w) = V0 -> tok = [] -> 0 <= cf_max_ead <= 3 -> 0 <= room <= 2 ^ 15 ->
  sat HU ead_compose w (fun y w' => y = true /\ exists l, goodtoks l /\ zlen l <= cf_max_ead /\ ead_weight l <= room /\
    view (w_ctx w') = VW s st m r meth ci ea ts tl th ps pl prk priv publ pub pee sec pci l).
Proof.
  intros [c t] HV T ME RM. pose proof HV as HV'. cbn [w_ctx] in HV'. openv HV'. unfold ead_compose. hys.
  assert (K : forall c' t', view c' = V0 -> sat HU (ret true) (Wd c' t') (fun y w' => y = true /\ exists l, goodtoks l /\ zlen l <= cf_max_ead /\ ead_weight l <= room /\
    view (w_ctx w') = VW s st m r meth ci ea ts tl th ps pl prk priv publ pub pee sec pci l) \/ cf_max_ead < 0).
  { intros c' t' HV1. destruct (Z.lt_ge_cases cf_max_ead 0); [now right|left]. apply sat_ret. split; [reflexivity|]. exists []. unfold goodtoks, ead_weight, zsum, zlen. cbn [map fold_right length].
    split; [repeat split; [constructor|lia|lia]|]. split; [lia|]. split; [lia|]. cbn [w_ctx]. now rewrite <- T. }
  destruct (K c t HV) as [KK|KK]; [|lia].
  destruct (f_compose ea) as [f|]; [|exact KK]. destruct (cf_max_ead =? 0); [exact KK|]. apply sat_bind.
  eapply hy_compose; [eassumption|lia|]. intros l A B C D. cbn [w_ctx w_tr]. hys. apply sat_ret. split; [lia|]. exists l. split; [|split; [exact A|split; [exact D|vfin]]].
  split; [|lia]. apply Forall_forall. intros x Hx. rewrite Forall_forall in B, C. split; auto.
Qed.
Lemma hv_process : forall w, view (w_ctx w) = V0 -> sat HU ead_process w (fun y w' => y = true /\ view (w_ctx w') = V0).
Proof.
  intros [c t] HV. pose proof HV as HV'. cbn [w_ctx] in HV'. openv HV'. unfold ead_process. hys.
  destruct (f_process ea); [|now apply sat_ret].
  destruct ((cf_max_ead =? 0) || (zlen tok =? 0)); [now apply sat_ret|]. hys. apply sat_ret. split; [reflexivity|exact HV].
Qed.
End V4.
End Triples.
