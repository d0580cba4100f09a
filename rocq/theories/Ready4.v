(** Exports and message 4 between willing parties. *)
From Verif Require Import Monad Api Common Msg1 Msg2 Msg3 Msg4 Exporter Rfc Uses Conform Received Sessions Safety
  Facts Logic Sym CborProofs RfcProofs CodecProofs RoundTrip Steps Steps2 Steps3 Claims3 Agree Ready ReadyStep ReadyLib ReadyMac ReadyWire ReadyMsg ReadyRead Ready2 Ready3.

Section Triples.
Context {E : env}.
Variables (p : primitives) (valid : bytes -> bytes -> bytes -> Prop) (s : csuite) (me : creds)
  (sk pk : bytes) (peer : creds) (pkp : bytes) (room : Z).
Hypothesis HW : willing p valid s me sk pk peer pkp room.
Hypothesis SZ : sized p s.
Hypothesis MD : modest s.
Lemma z_heap : 0 <= cf_sizeof_mac. Proof. now destruct (wl_heap _ _ _ _ _ _ _ _ _ HW). Qed.
Let z_hash : forall x, zlen (p_hash p (cs_hash s) x) = cs_hash s. Proof. apply SZ. Qed.
Let z_ext : forall x y, zlen (p_extract p x y) = cs_hash s. Proof. apply SZ. Qed.
Let z_exp : forall x i n, 0 < n -> zlen (p_expand p x i n) = n. Proof. apply SZ. Qed.
Let z_pub : forall x, zlen (p_pub p x) = cs_ecc s. Proof. apply SZ. Qed.
Let z_dh : forall x y, zlen (p_dh p x y) = cs_ecc s. Proof. apply SZ. Qed.
Let z_enc : forall k n a x, zlen (p_enc p k n a x) = zlen x + cs_tag s. Proof. apply SZ. Qed.
Ltac md := pose proof z_heap as MDz; pose proof MD as MD'; unfold modest in MD';
  destruct MD' as (MDh & MDm & MDk & MDi & MDe & MDs & MDt & MDx & MDy).
Ltac zl := rewrite ?z_hash, ?z_ext, ?z_pub, ?z_dh, ?z_enc, ?Z.eqb_refl; cbn [negb orb andb].
Ltac use L H := eapply sat_conseq; [eapply L; try exact HW; try exact SZ; try exact MD; try exact H; try eassumption; try reflexivity; try lia|].
Ltac step c t H := let y := fresh "y" in intros y [c t]; cbn [w_ctx]; intros [-> H]; shut; reopen H; hys.

(** PRK_out, the next PRK_out and an exported key. *)
Definition po_of (prk th : bytes) : bytes := p_expand p prk (info L_PRK_OUT th (cs_hash s)) (cs_hash s).
Definition next_po (po e : bytes) : bytes := p_expand p po (info L_NEW_PRK_OUT e (cs_hash s)) (cs_hash s).
Definition key_of_po (po : bytes) (label n : Z) : bytes :=
  p_expand p (p_expand p po (info L_PRK_EXPORTER [] (cs_hash s)) (cs_hash s)) (info label [] n) n.
Definition m4_of (prk4 th4 ptxt : bytes) : bytes :=
  cbor (Bstr (p_enc p (p_expand p prk4 (info L_K_4 th4 (cs_key s)) (cs_key s)) (p_expand p prk4 (info L_IV_4 th4 (cs_iv s)) (cs_iv s)) (aad th4) ptxt)).
Section V1.
Variables (st m r meth : Z) (ci : conn_id) (ea : ead_fns) (ts tl : Z) (th : bytes) (ps pl : Z)
  (prk priv : bytes) (publ : Z) (pub pee sec : bytes) (pci : conn_id) (tok : list token).
Local Notation V0 := (VW s st m r meth ci ea ts tl th ps pl prk priv publ pub pee sec pci tok).
Local Notation VO po := (VW s st m r meth ci ea ts tl th PRK_OUT pl po priv publ pub pee sec pci tok).
Lemma hv_kdf_prk : forall len label cxm cx w, view (w_ctx w) = V0 -> pl = cs_hash s ->
  (forall t, sat HU cxm (Wd (w_ctx w) t) (fun a w' => a = cx /\ w' = Wd (w_ctx w) t)) ->
  -65536 <= label <= 65535 -> zlen cx <= 65535 ->
  len = int_mem_req label + (zlen cx + bstr_oh (zlen cx)) + int_mem_req (i32 (cs_hash s)) ->
  sat HU (kdf_into_prk len label cxm) w (fun y w' => y = OK /\ view (w_ctx w') = VO (p_expand p prk (info label cx (cs_hash s)) (cs_hash s))).
Proof.
  md. intros len label cxm cx [c t] HV PL H1 L1 L2 LE. cbn [w_ctx] in *. openv HV.
  destruct (info_len label cx (cs_hash s) L1 L2) as [I1 I2]; [lia|].
  pose proof (bstr_oh_le (zlen cx) L2). pose proof (imr_le label). pose proof (imr_le (i32 (cs_hash s))).
  unfold kdf_into_prk. hys. eapply sat_conseq; [apply H1|]. intros a w' [-> ->].
  rewrite I1, fits_ok by lia. hys. apply sat_ret. split; [reflexivity|].
  assert (zlen (p_expand p prk (info label cx (cs_hash s)) (cs_hash s)) = cs_hash s) as ZE by (apply z_exp; lia).
  rewrite PL in *. vfin.
Qed.
Lemma hv_prk_out : forall w, view (w_ctx w) = V0 -> ts = TH_4 -> ps = PRK_4E3M -> tl = cs_hash s -> zlen th = tl -> pl = cs_hash s ->
  sat HU compute_prk_out w (fun y w' => y = OK /\ view (w_ctx w') = VO (po_of prk th)).
Proof.
  md. intros [c t] HV TS PS TL ZT PL. cbn [w_ctx] in HV. pose proof HV as HV'. openv HV'. unfold compute_prk_out. hys.
  apply hv_kdf_prk; try assumption; [|vm_compute; split; discriminate|lia|].
  - intro t'. apply hv_get_th. exact Vth.
  - rewrite ZT. reflexivity.
Qed.
End V1.
Section V2.
Variables (st m r meth : Z) (ci : conn_id) (ea : ead_fns) (ts tl : Z) (th : bytes) (ps pl : Z)
  (prk priv : bytes) (publ : Z) (pub pee sec : bytes) (pci : conn_id) (tok : list token).
Local Notation V0 := (VW s st m r meth ci ea ts tl th ps pl prk priv publ pub pee sec pci tok).
Local Notation VO po := (VW s st m r meth ci ea ts tl th PRK_OUT pl po priv publ pub pee sec pci tok).
(** The context has, or can compute, PRK_out = [po]. *)
Definition has_po (po : bytes) : Prop := pl = cs_hash s /\
  ((ps = PRK_4E3M /\ ts = TH_4 /\ tl = cs_hash s /\ zlen th = tl /\ po = po_of prk th) \/ (ps = PRK_OUT /\ po = prk)).
Lemma hv_have_po : forall w po, view (w_ctx w) = V0 -> has_po po ->
  sat HU (if c_prk_state (w_ctx w) =? PRK_4E3M then compute_prk_out else ret OK) w (fun y w' => y = OK /\ view (w_ctx w') = VO po).
Proof.
  intros [c t] po HV [PL [(-> & TS & TL & ZT & ->)|[-> ->]]]; cbn [w_ctx] in *; pose proof HV as HV'; openv HV'; rewrite Vps.
  - change (PRK_4E3M =? PRK_4E3M) with true. cbv iota. eapply hv_prk_out; eassumption || reflexivity.
  - change (PRK_OUT =? PRK_4E3M) with false. cbv iota. now apply sat_ret.
Qed.
End V2.
Section V3.
Variables (st m r meth : Z) (ci : conn_id) (ea : ead_fns) (ts tl : Z) (th : bytes) (ps pl : Z)
  (prk priv : bytes) (publ : Z) (pub pee sec : bytes) (pci : conn_id) (tok : list token).
Local Notation V0 := (VW s st m r meth ci ea ts tl th ps pl prk priv publ pub pee sec pci tok).
Local Notation VO po := (VW s st m r meth ci ea ts tl th PRK_OUT pl po priv publ pub pee sec pci tok).
Local Notation has_po := (has_po ts tl th ps pl prk).
Lemma hv_export : forall w po label n, view (w_ctx w) = V0 -> has_po po -> st <= SM_PERSISTED -> label_allowed label = true ->
  0 < n <= 65535 -> n <= 255 * cs_hash s -> int_mem_req n <= int_mem_req (cs_hash s) ->
  sat HU (export_prk_exporter true label n) w (fun y w' => y = (OK, key_of_po po label n) /\ view (w_ctx w') = VO po).
Proof.
  md. intros [c t] po label n HV HP ST LA N1 N2 N3. cbn [w_ctx] in HV. pose proof HV as HV'. openv HV'. unfold export_prk_exporter.
  assert (0 <= label <= 65535) as LB by (unfold label_allowed in LA; lia).
  rewrite LA. replace (negb true || (65535 <? label) || (n =? 0)) with false by lia. cbn [negb]. hys.
  assert (PRK_4E3M <= ps) as PG by (destruct HP as [_ [(-> & _)|(-> & _)]]; vm_compute; discriminate).
  replace ((SM_PERSISTED <? st) || (ps <? PRK_4E3M)) with false by lia. hys.
  replace ps with (c_prk_state (w_ctx (Wd c t))) by exact Vps.
  eapply sat_conseq; [eapply hv_have_po; [exact HV|exact HP]|]. intros y [c1 t1]. cbn [w_ctx]. intros [-> HV1]. shut. reopen HV1. hys.
  pose proof (imr_le (i32 (cs_hash s))). pose proof (imr_le label). change (bstr_oh 0) with 1. unfold compute_prk_exporter. hys.
  eapply sat_conseq; [eapply hv_kdf with (cx := []) (k := po); first [exact HW|exact SZ|exact MD|exact HV1|reflexivity|lia|idtac]|].
  - intro t'. apply sat_ret. now split.
  - intro t'. apply hv_get_prk. exact Vprk.
  - vm_compute; split; discriminate.
  - vm_compute; discriminate.
  - intros y [c2 t2]. cbn [w_ctx]. intros [-> HV2]. shut. reopen HV2. hys.
    destruct (info_len label [] n ltac:(lia)) as [I1 I2]; [vm_compute; discriminate|lia|].
    change (zlen (@nil Z)) with 0 in I2. change (bstr_oh 0) with 1 in I2. rewrite i32_id in * by lia.
    rewrite I1, fits_ok by lia. hys. apply sat_ret. split; [reflexivity|exact HV2].
Qed.
End V3.
Section V4.
Variables (st m r meth : Z) (ci : conn_id) (ea : ead_fns) (ts tl : Z) (th : bytes) (ps pl : Z)
  (prk priv : bytes) (publ : Z) (pub pee sec : bytes) (pci : conn_id) (tok : list token).
Local Notation V0 := (VW s st m r meth ci ea ts tl th ps pl prk priv publ pub pee sec pci tok).
Local Notation VO po := (VW s st m r meth ci ea ts tl th PRK_OUT pl po priv publ pub pee sec pci tok).
Lemma hv_update : forall w po e, view (w_ctx w) = V0 -> has_po ts tl th ps pl prk po -> SM_COMPLETED <= st -> 0 < zlen e <= 65535 ->
  sat HU (export_key_update true e) w (fun y w' => y = OK /\ view (w_ctx w') = VO (next_po po e) /\ c_oscore_ok (w_ctx w') = true).
Proof.
  md. intros [c t] po e HV HP ST ZE. cbn [w_ctx] in HV. pose proof HV as HV'. openv HV'. unfold export_key_update.
  replace (negb true || (zlen e =? 0)) with false by lia. hys.
  assert (PRK_4E3M <= ps) as PG by (destruct HP as [_ [(-> & _)|(-> & _)]]; vm_compute; discriminate).
  replace ((st <? SM_COMPLETED) || (ps <? PRK_4E3M)) with false by lia. hys.
  match goal with |- sat _ _ (Wd ?q ?t') _ => assert (view q = VW s SM_ABORTED m r meth ci ea ts tl th ps pl prk priv publ pub pee sec pci tok) as HV1 by vfin;
    assert (c_prk_state q = ps) as PQ by exact Vps end.
  match goal with |- sat _ (if ps =? _ then _ else _) ?w' _ => eapply sat_conseq; [replace ps with (c_prk_state (w_ctx w')) by exact PQ; eapply hv_have_po; [exact HV1|exact HP]|] end.
  intros y [c2 t2]. cbn [w_ctx]. intros [-> HV2]. clear PQ HV1. shut. reopen HV2. hys. unfold compute_new_prk_out. hys.
  eapply sat_conseq; [eapply hv_kdf_prk with (cx := e); first [exact HV2|apply HP|reflexivity|lia|idtac]|].
  - intro t'. apply sat_ret. now split.
  - vm_compute; split; discriminate.
  - intros y [c3 t3]. cbn [w_ctx]. intros [-> HV3]. shut. reopen HV3. hys. apply sat_ret. split; [reflexivity|]. split; [|reflexivity]. vfin.
Qed.
Lemma oscore_id_ok : forall i n, goodcid i -> zlen (oscore_bytes (cid_rfc i)) <= n -> oscore_id i n = (OK, oscore_bytes (cid_rfc i)).
Proof.
  intros i n G L. unfold oscore_id, cid_rfc in *. destruct G as [[T V]|[T V]]; rewrite T in *.
  - change (CID_INT =? CID_INT) with true in *. cbv iota in *. cbn [oscore_bytes] in *. rewrite enc_int_rfc. now rewrite fits_ok.
  - change (CID_BSTR =? CID_INT) with false in *. cbv iota in *. cbn [oscore_bytes] in *. change (CID_BSTR =? CID_BSTR) with true. cbv iota.
    now replace (n <? zlen (cid_bstr i)) with false by lia.
Qed.
Lemma hv_oscore : forall w po a b d e, view (w_ctx w) = V0 -> has_po ts tl th ps pl prk po -> SM_COMPLETED <= st <= SM_PERSISTED -> c_oscore_ok (w_ctx w) = true ->
  goodcid ci -> goodcid pci ->
  0 < a <= 65535 -> a <= 255 * cs_hash s -> int_mem_req a <= int_mem_req (cs_hash s) ->
  0 < b <= 65535 -> b <= 255 * cs_hash s -> int_mem_req b <= int_mem_req (cs_hash s) ->
  0 < d -> 0 < e -> zlen (oscore_bytes (cid_rfc pci)) <= d -> zlen (oscore_bytes (cid_rfc ci)) <= e ->
  sat HU (export_oscore_session true a b d e) w (fun y w' =>
    y = (OK, OSC (key_of_po po 0 a) (key_of_po po 1 b) (oscore_bytes (cid_rfc pci)) (oscore_bytes (cid_rfc ci))) /\ view (w_ctx w') = VO po).
Proof.
  md. intros [c t] po a b d e HV HP ST OK0 G1 G2 A1 A2 A3 B1 B2 B3 D E0 LD LE0. cbn [w_ctx] in HV, OK0. pose proof HV as HV'. openv HV'. unfold export_oscore_session.
  replace (negb true || (a =? 0) || (b =? 0) || (d =? 0) || (e =? 0)) with false by lia. hys.
  assert (PRK_4E3M <= ps) as PG by (destruct HP as [_ [(-> & _)|(-> & _)]]; vm_compute; discriminate).
  try (replace ((st <? SM_COMPLETED) || (ps <? PRK_4E3M)) with false by lia; cbv iota); hys.
  match goal with |- sat _ _ (Wd ?q ?t') _ => assert (view q = VW s SM_ABORTED m r meth ci ea ts tl th ps pl prk priv publ pub pee sec pci tok) as HV1 by vfin;
    generalize dependent q; intros c1 HV1 end.
  rewrite ?Vpc, ?Vci.
  eapply sat_conseq; [eapply hv_export with (po := po); first [exact HV1|exact HP|reflexivity|lia|vm_compute; discriminate]|].
  intros y [c2 t2]. cbn [w_ctx]. intros [-> HV2]. hys.
  assert (has_po ts tl th PRK_OUT pl po po) as HP2 by (split; [apply HP|right; now split]).
  eapply sat_conseq; [eapply hv_export with (po := po); first [exact HV2|exact HP2|reflexivity|lia|vm_compute; discriminate]|].
  intros y [c3 t3]. cbn [w_ctx]. intros [-> HV3]. hys. rewrite (oscore_id_ok _ _ G2 LD). hys. rewrite (oscore_id_ok _ _ G1 LE0). hys.
  clear HV2 HV1. shut. reopen HV3. apply sat_ret. split; [reflexivity|]. vfin.
Qed.
End V4.
Section V5.
Variables (st m r meth : Z) (ci : conn_id) (ea : ead_fns) (ts tl : Z) (th : bytes) (ps pl : Z)
  (prk priv : bytes) (publ : Z) (pub pee sec : bytes) (pci : conn_id) (tok : list token).
Local Notation V0 := (VW s st m r meth ci ea ts tl th ps pl prk priv publ pub pee sec pci tok).
Lemma hv_keys_4 : forall w, view (w_ctx w) = V0 -> ts = TH_4 -> ps = PRK_4E3M -> tl = cs_hash s -> zlen th = tl ->
  sat HU (compute_key_iv_aad_4 (cs_key s) (cs_iv s) (11 + (tl + bstr_oh tl))) w (fun y w' =>
    y = (OK, (p_expand p prk (info L_K_4 th (cs_key s)) (cs_key s), p_expand p prk (info L_IV_4 th (cs_iv s)) (cs_iv s), aad th)) /\
    view (w_ctx w') = V0).
Proof.
  md. intros [c t] HV T1 T0 T2 T3. pose proof HV as HV'. cbn [w_ctx] in HV'. openv HV'. unfold compute_key_iv_aad_4, key_iv_aad.
  assert (1 <= bstr_oh tl <= 3) by (apply bstr_oh_le; lia). pose proof (imr_le L_IV_3). pose proof (imr_le (i32 (cs_key s))). change (int_mem_req L_IV_3) with 1 in *.
  hys. eapply sat_conseq; [eapply (hv_expand_part) with (label := L_K_4) (n := cs_key s); first [exact HW|exact SZ|exact MD|exact HV|lia|idtac]|]; [vm_compute; split; discriminate|rewrite T2; change (int_mem_req L_K_4) with 1; lia|].
  intros y [c1 t1] [-> HV1]. cbn [w_ctx] in HV1. reopen HV1. hys.
  eapply sat_conseq; [eapply (hv_expand_part) with (label := L_IV_4) (n := cs_iv s); first [exact HW|exact SZ|exact MD|exact HV1|lia|idtac]|]; [vm_compute; split; discriminate|rewrite T2; change (int_mem_req L_IV_4) with 1; lia|].
  intros y [c2 t2] [-> HV2]. cbn [w_ctx] in HV2. reopen HV2. hys.
  rewrite enc_enc_structure_rfc. fold (aad th). assert (zlen (aad th) = 11 + (zlen th + bstr_oh (zlen th))) as ZA by (exact (zlen_aad p s SZ [] [] [] 0 [] [] [] th ltac:(lia))). rewrite T3 in ZA. rewrite fits_ok by lia. rewrite arr_read_exact by lia.
  apply sat_ret. split; [reflexivity|exact HV2].
Qed.
Lemma hv_plaintext_4 : forall w, view (w_ctx w) = V0 -> goodtoks tok ->
  sat HU (prepare_plaintext_4 (ead_len_of tok)) w (fun y w' => w' = w /\ y = (OK, eads tok)).
Proof.
  intros [c t] HV G. pose proof HV as HV'. cbn [w_ctx] in HV'. openv HV'. unfold prepare_plaintext_4. pose proof G as (_ & G3 & _). hys.
  destruct (zlen tok =? 0) eqn:Z0.
  - apply Z.eqb_eq, zlen_0 in Z0. apply sat_ret. now rewrite Z0.
  - apply sat_bind. eapply sat_conseq; [apply sat_both; [apply hv_encode_tokens; [exact G|lia|reflexivity]|apply ok_encode_tokens]|].
    intros x w' [[-> [b ->]] [_ K]]. apply sat_ret. split; [reflexivity|]. now destruct (K b eq_refl) as [-> _].
Qed.
End V5.
Section V6.
Variables (st m r meth : Z) (ci : conn_id) (ea : ead_fns) (ts tl : Z) (th : bytes) (ps pl : Z)
  (prk priv : bytes) (publ : Z) (pub pee sec : bytes) (pci : conn_id) (tok : list token).
Local Notation V0 := (VW s st m r meth ci ea ts tl th ps pl prk priv publ pub pee sec pci tok).
Lemma hv_m4_compose : forall n w, view (w_ctx w) = V0 -> st = SM_COMPLETED -> ts = TH_4 -> ps = PRK_4E3M -> tok = [] ->
  tl = cs_hash s -> zlen th = tl -> 0 <= cf_max_ead <= 3 -> 0 <= room <= 2 ^ 15 -> 0 < cs_tag s -> 65536 <= n ->
  sat HU (message_4_compose true n) w (fun z w' => exists l, z = (OK, m4_of prk th (eads l)) /\ goodtoks l /\ zlen l <= cf_max_ead /\
    view (w_ctx w') = VW s SM_PERSISTED MSG_4 RESPONDER meth ci ea ts tl th ps pl prk priv publ pub pee sec pci []).
Proof.
  md. intros n [c t] HV ST TS PS T TL ZT CE RM TG N. cbn [w_ctx] in *. openv HV.
  unfold message_4_compose, enter, in_state. hys.
  match goal with |- sat _ _ (Wd ?q _) _ => assert (view q = VW s SM_ABORTED MSG_4 RESPONDER meth ci ea ts tl th ps pl prk priv publ pub pee sec pci tok) as HV5 by vfin;
    generalize dependent q; intros c1 HV5 end.
  assert (aad_len_of c = 11 + (tl + bstr_oh tl)) as AL by (unfold aad_len_of; rewrite Vtl; change (tstr_oh 9) with 1; lia).
  pose proof (bstr_oh_le tl ltac:(lia)) as OH. rewrite AL.
  use hv_compose HV5.
  intros q [c6 t6]. cbn [w_ctx]. intros (-> & l & GL & LL & WL & HV6). shut. reopen HV6.
  assert (zlen (eads l) <= ead_weight l /\ ead_len_of l <= ead_weight l /\ 0 <= ead_weight l) as (WE1 & WE2 & WE3) by (exact (weigh p s [] 0 SZ l GL)). pose proof (zlen_nonneg _ (eads l)). hys.
  pose proof (eads_len l (proj1 GL) ltac:(destruct GL as (_ & _ & ?); lia)) as EL. hys.
  use hv_plaintext_4 HV6. intros q [c7 t7] [E7 ->]. injection E7 as -> ->. hys.
  use hv_keys_4 HV6. step c8 t8 HV8.
  unfold aead_encrypt. hys. unfold gen_msg_4. rewrite z_enc.
  replace ((zlen (eads l) + cs_tag s =? 0) || (n =? 0)) with false by lia.
  rewrite fits_ok; [|match goal with |- zlen (enc_bstr ?b) <= _ => assert (zlen b = zlen (eads l) + cs_tag s) as ZB by apply z_enc; rewrite zlen_enc_bstr by lia; pose proof (bstr_oh_le (zlen b) ltac:(lia)); lia end].
  hys. apply sat_ret. exists l. split; [|split; [exact GL|split; [exact LL|vfin]]]. now rewrite enc_bstr_rfc.
Qed.
Lemma hv_m4_process : forall l w, view (w_ctx w) = V0 -> correct p -> st = SM_COMPLETED -> ts = TH_4 -> ps = PRK_4E3M -> tok = [] ->
  tl = cs_hash s -> zlen th = tl -> goodtoks l -> 0 < cs_tag s ->
  sat HU (message_4_process true (m4_of prk th (eads l))) w (fun z w' => z = OK /\
    view (w_ctx w') = VW s SM_PERSISTED MSG_4 INITIATOR meth ci ea ts tl th ps pl prk priv publ pub pee sec pci []).
Proof.
  md. intros l [c t] HV [_ CP] ST TS PS T TL ZT GL TG. cbn [w_ctx] in *. openv HV.
  unfold message_4_process, enter, in_state, m4_of.
  set (ptxt := eads l). set (ct := p_enc p _ _ _ ptxt).
  assert (zlen ct = zlen ptxt + cs_tag s) as ZC by apply z_enc.
  assert (zlen (eads l) <= ead_weight l /\ ead_len_of l <= ead_weight l /\ 0 <= ead_weight l) as (WE1 & WE2 & WE3) by (exact (weigh p s [] 0 SZ l GL)). pose proof (zlen_nonneg _ (eads l)) as ZE. destruct (GL) as (_ & _ & WL). fold ptxt in WE1, ZE.
  assert (0 < zlen (cbor (Bstr ct))) as MP0 by (pose proof (bstr_le ct); lia).
  hys. rewrite one_bstr_rt by lia. hys.
  match goal with |- sat _ _ (Wd ?q _) _ => assert (view q = VW s SM_ABORTED MSG_4 INITIATOR meth ci ea ts tl th ps pl prk priv publ pub pee sec pci tok) as HV5 by vfin;
    generalize dependent q; intros c1 HV5 end.
  assert (aad_len_of c = 11 + (tl + bstr_oh tl)) as AL by (unfold aad_len_of; rewrite Vtl; change (tstr_oh 9) with 1; lia).
  pose proof (bstr_oh_le tl ltac:(lia)) as OH. rewrite AL. shut. reopen HV5. hys.
  use hv_keys_4 HV5. step c6 t6 HV6.
  assert (size_sub (zlen ct) (cs_tag s) = zlen ptxt) as SB by (unfold size_sub; rewrite ZC, Z.mod_small; lia). rewrite SB. hys.
  unfold aead_decrypt. hys. eapply hy_decrypt with (x := ptxt); [eassumption|keyat|apply CP|lia|]. cbn [w_ctx w_tr]. hys.
  match goal with |- sat _ _ (Wd ?q _) _ => assert (view q = VW s SM_ABORTED MSG_4 INITIATOR meth ci ea ts tl th ps pl prk priv publ pub pee sec pci (dec_plaintext_4 cf_canon ptxt)) as HV7 by vfin;
    generalize dependent q; intros c7 HV7 end.
  use hv_process HV7. step c8 t8 HV8. apply sat_ret. split; [reflexivity|]. rewrite T in *. vfin.
Qed.
End V6.
End Triples.
