(** Plaintexts, message_2 and transcript hashes of a willing party. *)
From Verif Require Import Monad Api Common Msg1 Msg2 Msg3 Rfc Uses Conform Received Sessions Safety
  Facts Logic Sym CborProofs RfcProofs CodecProofs RoundTrip Steps Steps2 Steps3 Claims3 Agree Ready ReadyStep ReadyLib ReadyMac ReadyWire.

Section Triples.
Context {E : env}.
Variables (p : primitives) (valid : bytes -> bytes -> bytes -> Prop) (s : csuite) (me : creds)
  (sk pk : bytes) (peer : creds) (pkp : bytes) (room : Z).
Hypothesis HW : willing p valid s me sk pk peer pkp room.
Hypothesis SZ : sized p s.
Hypothesis MD : modest s.
Lemma z_heap : 0 <= cf_sizeof_mac. Proof. now destruct (wl_heap _ _ _ _ _ _ _ _ _ HW). Qed.
Let z_hash : forall x, zlen (p_hash p (cs_hash s) x) = cs_hash s. Proof. apply SZ. Qed.
Let z_ext : forall x y, zlen (p_extract p x y) = cs_hash s. Proof. apply SZ. Qed.
Let z_exp : forall x i n, 0 < n -> zlen (p_expand p x i n) = n. Proof. apply SZ. Qed.
Let z_pub : forall x, zlen (p_pub p x) = cs_ecc s. Proof. apply SZ. Qed.
Let z_dh : forall x y, zlen (p_dh p x y) = cs_ecc s. Proof. apply SZ. Qed.
Let z_enc : forall k n a x, zlen (p_enc p k n a x) = zlen x + cs_tag s. Proof. apply SZ. Qed.
Ltac md := pose proof z_heap as MDz; pose proof MD as MD'; unfold modest in MD';
  destruct MD' as (MDh & MDm & MDk & MDi & MDe & MDs & MDt & MDx & MDy).
Ltac zl := rewrite ?z_hash, ?z_ext, ?z_pub, ?z_dh, ?z_enc, ?Z.eqb_refl; cbn [negb orb andb].
Section V1.
Variables (st m r meth : Z) (ci : conn_id) (ea : ead_fns) (ts tl : Z) (th : bytes) (ps pl : Z)
  (prk priv : bytes) (publ : Z) (pub pee sec : bytes) (pci : conn_id) (tok : list token).
Local Notation V0 := (VW s st m r meth ci ea ts tl th ps pl prk priv publ pub pee sec pci tok).
Lemma toks_none : forall mc cr, mac_vals m r ci th pci tok cr mc -> (if mc_is_ead mc then mc_ead mc else []) = eads tok.
Proof.
  intros mc cr (_ & _ & _ & _ & A & B & _). rewrite A, B. destruct (zlen tok =? 0) eqn:Z0; [|reflexivity]. cbn [negb].
  apply Z.eqb_eq, zlen_0 in Z0. now rewrite Z0.
Qed.
Lemma sent_small : forall cr, usable cr -> zlen (id_sent cr) <= zlen (id_bytes cr).
Proof. intros cr (_ & [i T] & _). rewrite (travels_sent cr i T). now apply sent_le. Qed.
Lemma hv_plaintext_len : forall cr mc sl w, view (w_ctx w) = V0 -> goodcid ci -> usable cr -> mac_vals m r ci th pci tok cr mc ->
  plain (mc_comp mc, (mc_ctype mc, mc_cint mc, mc_cbstr mc)) ->
  zlen (id_bytes cr) <= 2 ^ 15 -> goodtoks tok -> 0 < sl <= 2 ^ 12 ->
  sat HU (comp_plaintext_len mc sl) w (fun y w' => w' = w /\ exists n, y = (OK, n) /\ zlen (cid_b ci) <= n <= 2 ^ 18 /\ 0 < n).
Proof.
  intros cr mc sl [c t] HV C U MV PL L1 (F & N & W) L2. cbn [w_ctx] in HV. openv HV. unfold comp_plaintext_len. hys.
  apply sat_ret. split; [reflexivity|]. eexists. split; [reflexivity|].
  destruct (cid_parts _ C) as (C1 & _ & C3). unfold comp_cid_len in C1.
  assert ((if cid_type ci =? CID_INT then int_mem_req (cid_int ci) else
    if cid_type ci =? CID_BSTR then zlen (cid_bstr ci) + bstr_oh (zlen (cid_bstr ci)) else 0) = zlen (cid_b ci)) as ->.
  { destruct C as [[C0 C4]|[C0 _]]; rewrite C0 in *; change (CID_INT =? CID_INT) with true in *; change (CID_BSTR =? CID_INT) with false in *; cbv iota in *.
    - replace (int_mem_req (cid_int ci)) with 1; [congruence|]. unfold int_mem_req. now replace ((-24 <=? cid_int ci) && (cid_int ci <=? 23)) with true by lia.
    - change (CID_BSTR =? CID_BSTR) with true in *. cbv iota in *. congruence. }
  pose proof (sent_small cr U) as SS. pose proof MV as (_ & HI & _ & _ & HE & _ & HW'). rewrite <- HW' in SS. rewrite HE, HI.
  pose proof (eads_len tok F ltac:(lia)). pose proof (ead_len_weight tok F ltac:(lia)). pose proof (zlen_nonneg _ (eads tok)).
  assert (1 <= bstr_oh sl <= 3) by (apply bstr_oh_le; lia). pose proof (zlen_nonneg _ (id_bytes cr)).
  unfold id_written in SS.
  assert (0 <= (if mc_comp mc then if mc_ctype mc =? ENC_INT then int_mem_req (mc_cint mc)
              else if mc_ctype mc =? ENC_BSTR then zlen (mc_cbstr mc) + bstr_oh (zlen (mc_cbstr mc)) else 0
            else zlen (id_bytes cr)) <= 2 ^ 15 + 10); [|lia].
  unfold plain in PL. destruct (mc_comp mc); [|lia]. pose proof (imr_le (mc_cint mc)). pose proof (zlen_nonneg _ (mc_cbstr mc)).
  destruct (PL eq_refl) as [K|K]; rewrite K in *; [change (ENC_INT =? ENC_INT) with true; cbv iota; lia|].
  change (ENC_BSTR =? ENC_INT) with false in *. change (ENC_BSTR =? ENC_BSTR) with true. cbv iota in *.
  assert (1 <= bstr_oh (zlen (mc_cbstr mc)) <= 3) by (apply bstr_oh_le; lia). lia.
Qed.
Lemma hv_fill : forall cr mc sg pre n w, mac_vals m r ci th pci tok cr mc ->
  plain (mc_comp mc, (mc_ctype mc, mc_cint mc, mc_cbstr mc)) -> zlen sg <= 65535 ->
  sat HU (fill_plaintext mc sg pre n) w (fun y w' => w' = w /\ y = (OK, pre ++ id_sent cr ++ cbor (Bstr sg) ++ eads tok)).
Proof.
  intros cr mc sg pre n w MV PL L. unfold fill_plaintext. apply sat_bind.
  apply sat_conseq with (P := fun y w' => w' = w /\ y = (OK, id_sent cr)).
  - pose proof MV as (_ & HI & _ & _ & _ & _ & HW'). rewrite <- HW'. unfold id_written, plain in *. destruct (mc_comp mc); [|now apply sat_ret].
    destruct (PL eq_refl) as [K|K]; rewrite K; now apply sat_ret.
  - intros y w' [-> ->]. hys. rewrite fits_ok by (rewrite zlen_enc_bstr; lia). hys.
    apply sat_ret. split; [reflexivity|]. rewrite <- (toks_none mc cr MV), enc_bstr_rfc. destruct (mc_is_ead mc); rewrite ?app_nil_r, <- ?app_assoc; reflexivity.
Qed.
Lemma hv_plaintext_2 : forall cr mc sg n w, view (w_ctx w) = V0 -> goodcid ci -> mac_vals m r ci th pci tok cr mc ->
  plain (mc_comp mc, (mc_ctype mc, mc_cint mc, mc_cbstr mc)) -> zlen sg <= 65535 -> zlen (cid_b ci) <= n ->
  sat HU (prepare_plaintext_2 mc sg n) w (fun y w' => w' = w /\ y = (OK, cid_b ci ++ id_sent cr ++ cbor (Bstr sg) ++ eads tok)).
Proof.
  intros cr mc sg n [c t] HV C MV PL L N. cbn [w_ctx] in HV. openv HV. unfold prepare_plaintext_2. hys.
  destruct (cid_parts _ C) as (_ & C2 & _).
  assert ((cid_type ci =? CID_INT) || (cid_type ci =? CID_BSTR) = true) as -> by (destruct C as [[-> _]|[-> _]]; reflexivity).
  cbn [negb]. rewrite C2 by assumption. now apply hv_fill.
Qed.
Lemma hv_plaintext_3 : forall cr mc sg n w, mac_vals m r ci th pci tok cr mc ->
  plain (mc_comp mc, (mc_ctype mc, mc_cint mc, mc_cbstr mc)) -> 0 < zlen sg <= 65535 -> 0 < n ->
  sat HU (prepare_plaintext_3 mc sg n) w (fun y w' => w' = w /\ y = (OK, id_sent cr ++ cbor (Bstr sg) ++ eads tok)).
Proof.
  intros cr mc sg n w MV PL L N. unfold prepare_plaintext_3. hys. eapply sat_conseq; [eapply hv_fill; [eassumption|eassumption|lia]|]. intros y w' [-> ->]. split; reflexivity.
Qed.
Lemma hv_keystream : forall k n w, view (w_ctx w) = V0 -> ts = TH_2 -> tl = cs_hash s -> zlen th = tl ->
  0 < zlen k -> 0 < n <= 65535 -> n <= 255 * cs_hash s ->
  sat HU (comp_keystream k n) w (fun y w' => y = (OK, p_expand p k (info KEYSTREAM_2 th n) n) /\ view (w_ctx w') = V0).
Proof.
  md. intros k n [c t] HV T1 T2 T3 K N1 N2. pose proof HV as HV'. cbn [w_ctx] in HV'. openv HV'. unfold comp_keystream. hys.
  eapply hv_kdf; try eassumption.
  - intro t0. now apply hv_get_th.
  - intro t0. now apply sat_ret.
  - split; vm_compute; discriminate.
  - lia.
  - unfold info_th_len. now rewrite Vtl, T3.
Qed.
Lemma hv_th_next : forall cur next strict mc ptxt w, view (w_ctx w) = V0 -> ts = cur -> tl = cs_hash s -> zlen th = tl ->
  0 < zlen ptxt <= 2 ^ 18 -> zlen (mc_cred mc) <= 2 ^ 15 ->
  sat HU (comp_th_next cur next strict mc ptxt) w (fun y w' => y = OK /\
    view (w_ctx w') = VW s st m r meth ci ea next (cs_hash s) (p_hash p (cs_hash s) (cbor (Bstr th) ++ ptxt ++ mc_cred mc)) ps pl prk priv publ pub pee sec pci tok).
Proof.
  md. intros cur next strict mc ptxt [c t] HV T1 T2 T3 L1 L2. pose proof HV as HV'. cbn [w_ctx] in HV'. openv HV'. unfold comp_th_next.
  pose proof (zlen_nonneg _ (mc_cred mc)). assert (1 <= bstr_oh tl <= 3) by (apply bstr_oh_le; lia).
  hys. rewrite fits_ok by (rewrite zlen_enc_bstr, T3; lia). hys.
  rewrite enc_bstr_rfc. assert (zlen (cbor (Bstr th) ++ ptxt ++ mc_cred mc) = tl + bstr_oh tl + zlen ptxt + zlen (mc_cred mc)) as LA.
  { rewrite !zlen_app, zlen_bstr_oh, T3 by lia. lia. }
  rewrite arr_read_exact by exact LA.
  eapply sat_conseq; [eapply hv_hash_th; [eassumption|eassumption|eassumption|exact HV]|]. intros z [c' t'] [-> HV2]. cbn [w_ctx] in HV2. reopen HV2.
  hys. replace (strict && negb (cs_hash s =? cs_hash s)) with false by (rewrite Z.eqb_refl; now destruct strict). hys.
  apply sat_ret. split; [reflexivity|]. vfin.
Qed.
Lemma hv_message_2 : forall ct n w, view (w_ctx w) = V0 -> publ = cs_ecc s -> zlen pub = publ -> 0 < zlen ct <= 50000 -> 65536 <= n ->
  sat HU (prepare_message_2 ct n) w (fun y w' => y = (OK, cbor (Bstr (pub ++ ct))) /\ view (w_ctx w') = V0).
Proof.
  md. intros ct n [c t] HV P1 P2 L N. pose proof HV as HV'. cbn [w_ctx] in HV'. openv HV'. unfold prepare_message_2. hys.
  assert (1 <= bstr_oh (zlen (pub ++ ct)) <= 3) by (apply bstr_oh_le; rewrite zlen_app; lia).
  rewrite fits_ok by (rewrite zlen_enc_bstr; rewrite zlen_app in *; lia). apply sat_ret. split; [now rewrite enc_bstr_rfc|exact HV].
Qed.
Lemma hv_ctxt_len : forall g ct w, view (w_ctx w) = V0 -> zlen g = cs_ecc s -> zlen ct <= 2 ^ 18 ->
  sat HU (comp_ciphertext_2_len (cbor (Bstr (g ++ ct)))) w (fun y w' => w' = w /\ y = (OK, zlen ct)).
Proof.
  md. intros g ct [c t] HV L1 L2. cbn [w_ctx] in HV. openv HV. unfold comp_ciphertext_2_len, dec_message_2. pose proof (zlen_nonneg _ ct).
  rewrite <- (app_nil_r (cbor _)), str_p_dec by (rewrite ?zlen_app; lia). hys. cbn [zs_len].
  apply sat_ret. split; [reflexivity|]. f_equal. unfold size_sub. rewrite zlen_app, L1. rewrite Z.mod_small; lia.
Qed.
Lemma hv_parse_msg_2 : forall g ct w, view (w_ctx w) = V0 -> zlen g = cs_ecc s -> zlen ct <= 2 ^ 18 ->
  sat HU (parse_msg_2 (cbor (Bstr (g ++ ct))) (zlen ct)) w (fun y w' => y = (OK, ct) /\
    view (w_ctx w') = VW s st m r meth ci ea ts tl th ps pl prk priv publ pub g sec pci tok).
Proof.
  md. intros g ct [c t] HV L1 L2. cbn [w_ctx] in HV. openv HV. unfold parse_msg_2, dec_message_2. pose proof (zlen_nonneg _ ct).
  rewrite <- (app_nil_r (cbor _)), str_p_dec by (rewrite ?zlen_app; lia). hys. cbn [zs_ptr]. rewrite app_nil_r.
  apply hu_rd_ptr; [assumption|]. hys. rewrite drop_app_exact by assumption. rewrite <- (app_nil_r ct) at 2.
  hys. apply hu_rd_ptr; [reflexivity|]. apply sat_ret. split; [reflexivity|]. vfin.
Qed.
End V1.
End Triples.
