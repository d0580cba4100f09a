(** Message 2 between willing parties. *)
From Verif Require Import Monad Api Common Msg1 Msg2 Msg3 Rfc Uses Conform Received Sessions Safety
  Facts Logic Sym CborProofs RfcProofs CodecProofs RoundTrip Steps Steps2 Steps3 Claims3 Agree Ready ReadyStep ReadyLib ReadyMac ReadyWire ReadyMsg ReadyRead.

Section Triples.
Context {E : env}.
Variables (p : primitives) (valid : bytes -> bytes -> bytes -> Prop) (s : csuite) (me : creds)
  (sk pk : bytes) (peer : creds) (pkp : bytes) (room : Z).
Hypothesis HW : willing p valid s me sk pk peer pkp room.
Hypothesis SZ : sized p s.
Hypothesis MD : modest s.
Lemma z_heap : 0 <= cf_sizeof_mac. Proof. now destruct (wl_heap _ _ _ _ _ _ _ _ _ HW). Qed.
Let z_hash : forall x, zlen (p_hash p (cs_hash s) x) = cs_hash s. Proof. apply SZ. Qed.
Let z_ext : forall x y, zlen (p_extract p x y) = cs_hash s. Proof. apply SZ. Qed.
Let z_exp : forall x i n, 0 < n -> zlen (p_expand p x i n) = n. Proof. apply SZ. Qed.
Let z_pub : forall x, zlen (p_pub p x) = cs_ecc s. Proof. apply SZ. Qed.
Let z_dh : forall x y, zlen (p_dh p x y) = cs_ecc s. Proof. apply SZ. Qed.
Let z_enc : forall k n a x, zlen (p_enc p k n a x) = zlen x + cs_tag s. Proof. apply SZ. Qed.
Ltac md := pose proof z_heap as MDz; pose proof MD as MD'; unfold modest in MD';
  destruct MD' as (MDh & MDm & MDk & MDi & MDe & MDs & MDt & MDx & MDy).
Ltac zl := rewrite ?z_hash, ?z_ext, ?z_pub, ?z_dh, ?z_enc, ?Z.eqb_refl; cbn [negb orb andb].
Ltac use L H := eapply sat_conseq; [eapply L; try exact HW; try exact SZ; try exact MD; try exact H; try eassumption; try reflexivity; try lia|].
Ltac step c t H := let y := fresh "y" in intros y [c t]; cbn [w_ctx]; intros [-> H]; shut; reopen H; hys.
(** The first two flights, as values. *)
Definition th2_of (gy th1 : bytes) : bytes := p_hash p (cs_hash s) (cbor_seq [Bstr gy; Bstr th1]).
Definition ptxt2_of (i : conn_id) (cr : creds) (sg : bytes) (l : list token) : bytes :=
  cid_b i ++ id_sent cr ++ cbor (Bstr sg) ++ eads l.
Definition m2_of (gy prk2 th2 ptxt : bytes) : bytes :=
  let n := zlen ptxt in cbor (Bstr (gy ++ xor_bytes ptxt (p_expand p prk2 (info KEYSTREAM_2 th2 n) n))).
Definition th_next (th ptxt cred : bytes) : bytes := p_hash p (cs_hash s) (cbor (Bstr th) ++ ptxt ++ cred).

Lemma weigh : forall l, goodtoks l -> zlen (eads l) <= ead_weight l /\ ead_len_of l <= ead_weight l /\ 0 <= ead_weight l.
Proof.
  intros l (F & _ & W). pose proof (eads_len l F ltac:(lia)). pose proof (ead_len_weight l F ltac:(lia)). pose proof (weight_nonneg l F). lia.
Qed.
Lemma mac_room : forall i j l m0 r0 t0 cr, goodcid i -> goodcid j -> goodtoks l -> ead_weight l <= room -> burden cr room <= 2 ^ 15 -> zlen t0 = cs_hash s ->
  zlen (mac_buf m0 r0 i t0 j l cr) <= 65535.
Proof.
  md. intros i j l m0 r0 t0 cr GI GJ GL WL B T. assert (zlen (mac_buf m0 r0 i t0 j l cr) <= mac_size m0 r0 i t0 j l cr) as L by (eapply buf_size; eassumption).
  assert (forall q, goodcid q -> 1 <= zlen (cid_b q) <= 2 ^ 12 + 3) as CP by (intros q Q; eapply cid_parts; eassumption).
  destruct (weigh l GL) as (W1 & W2 & W3). unfold mac_size in L. unfold burden in B.
  assert (1 <= zlen (cid_b (the_cid r0 i j)) <= 2 ^ 12 + 3) by (unfold the_cid; destruct (r0 =? INITIATOR); now apply CP).
  assert (1 <= bstr_oh (zlen t0) <= 3) by (apply bstr_oh_le; lia). rewrite zlen_bstr_oh in L by lia.
  assert ((if m0 =? MSG_2 then zlen (cid_b (the_cid r0 i j)) else 0) <= 2 ^ 12 + 3) by (destruct (m0 =? MSG_2); lia). lia.
Qed.
Section V1.
Variables (st m r meth : Z) (ci : conn_id) (ea : ead_fns) (ts tl : Z) (th : bytes) (ps pl : Z)
  (prk priv : bytes) (publ : Z) (pub pee sec : bytes) (pci : conn_id) (tok : list token).
Local Notation V0 := (VW s st m r meth ci ea ts tl th ps pl prk priv publ pub pee sec pci tok).
Lemma hv_m2_compose : forall n x w, view (w_ctx w) = V0 ->
  st = SM_RECEIVED_M1 -> ts = TH_1 -> ps = PRK_INVALID -> tok = [] -> r = RESPONDER -> tl = cs_hash s -> zlen th = tl ->
  pee = p_pub p x -> 0 <= meth <= 3 -> goodcid ci -> goodcid pci -> 0 <= cf_max_ead <= 3 -> 0 <= room -> usable me -> burden me room <= 2 ^ 15 ->
  zlen (cid_b ci) + zlen (id_bytes me) + room + Z.max (cs_sign s) (cs_mac s) + 3 <= 255 * cs_hash s -> 65536 <= n ->
  sat HU (message_2_compose true n) w (fun z w' => exists y l sg m2, z = (OK, m2) /\ zlen y = cs_ecc s /\ goodtoks l /\ zlen l <= cf_max_ead /\
    ead_weight l <= room /\ 0 < zlen sg <= 2 ^ 12 /\
    let gy := p_pub p y in let th2 := th2_of gy th in let prk2 := p_extract p th2 (p_dh p y pee) in
    let prk3 := prk_3_r p s sk meth th2 prk2 pee in
    let ptxt := ptxt2_of ci me sg l in let th3 := th_next th2 ptxt (cred_bytes_of me) in
    pop valid MSG_2 meth th2 l pk me (mac_val p s MSG_2 RESPONDER meth ci th2 prk3 pci l me) sg /\
    0 < zlen ptxt <= 50000 /\ zlen ptxt <= 255 * cs_hash s /\
    m2 = m2_of gy prk2 th2 ptxt /\
    view (w_ctx w') = VW s SM_WAIT_M3 MSG_2 RESPONDER meth ci ea TH_3 (cs_hash s) th3 PRK_3E2M (cs_hash s) prk3 y (cs_ecc s) gy pee (p_dh p y pee) pci []).
Proof.
  md. intros n x [c t] HV ST TS PS T R TL ZT PE ME GC GJ CE RM U B ST2 N. cbn [w_ctx] in *. openv HV.
  unfold message_2_compose, enter, in_state. hys.
  match goal with |- sat _ _ (Wd ?q _) _ => assert (view q = VW s SM_ABORTED MSG_2 RESPONDER meth ci ea ts tl th ps pl prk priv publ pub pee sec pci tok) as HV1 by vfin;
    generalize dependent q; intros c1 HV1 end.
  use hv_gen_dh HV1. intros q [c2 t2]. cbn [w_ctx]. intros (-> & y & ZY & HV2). shut. reopen HV2. hys.
  use hv_dh_secret HV2. step c3 t3 HV3.
  use hv_th_2 HV3; [now right|cbn [gof]; apply z_pub|].
  intros q [c4 t4]. cbn [w_ctx]. intros [-> HV4]. change (gof RESPONDER (p_pub p y) pee) with (p_pub p y) in HV4. fold (th2_of (p_pub p y) th) in HV4. shut. reopen HV4. hys.
  use hv_prk_2e HV4. step c5 t5 HV5.
  use hv_compose HV5; [unfold burden in B; pose proof (zlen_nonneg _ (id_bytes me)); pose proof (zlen_nonneg _ (cred_bytes_of me)); lia|].
  intros q [c6 t6]. cbn [w_ctx]. intros (-> & l & GL & LL & WL & HV6). shut. reopen HV6. hys.
  assert (zlen (th2_of (p_pub p y) th) = cs_hash s) as Z2 by apply z_hash.
  use hv_prk_3_r HV6; [now exists x|]. step c7 t7 HV7.
  set (th2 := th2_of (p_pub p y) th) in *. set (prk2 := p_extract p th2 (p_dh p y pee)) in *. set (prk3 := prk_3_r p s sk meth th2 prk2 pee) in *.
  assert (macable s MSG_2 RESPONDER ci TH_2 (cs_hash s) th2 pci l me) as MB.
  { unfold burden in B. pose proof (zlen_nonneg _ (id_bytes me)); pose proof (zlen_nonneg _ (cred_bytes_of me)). constructor; [now right|now left|now split|exact GC|exact U|lia|lia|exact GL]. }
  assert (zlen (mac_buf MSG_2 RESPONDER ci th2 pci l me) <= 65535) as BUF by (apply mac_room; assumption).
  assert (msg23 MSG_2 meth) as M23 by (split; [now left|exact ME]).
  assert (mac_size MSG_2 RESPONDER ci th2 pci l me <= 2 ^ 19) as SML by (eapply Z.le_trans; [eapply mac_small; eassumption|lia]).
  use hv_mac_len HV7. intros q [c8 t8] [E8 (ml & -> & ML)]. injection E8 as -> ->. hys.
  use hv_mac_ctx HV7. intros q [c8 t8] [E8 (mc & -> & MP & PLN)]. injection E8 as -> ->. cbn [w_ctx] in MP. hys.
  assert (mac_vals MSG_2 RESPONDER ci th2 pci l me mc) as MV by (eapply mac_post_vals; eassumption).
  use hv_mac_length HV7. intros q [c8 t8] [E8 ->]. injection E8 as -> ->.
  assert (0 < mac_length s (stat MSG_2 meth) <= 2 ^ 12 /\ mac_length s (stat MSG_2 meth) <= 255 * cs_hash s) as MLP by (eapply ml_pos; eassumption). hys.
  use hv_comp_mac HV7. step c8 t8 HV8.
  use hv_sig_length HV8. intros q [c9 t9] [E9 ->]. injection E9 as -> ->.
  assert (0 < sig_length s MSG_2 meth <= 2 ^ 12 /\ sig_length s MSG_2 meth <= Z.max (cs_sign s) (cs_mac s)) as SGL by (unfold sig_length; destruct (stat MSG_2 meth); lia). hys.
  use hv_sign HV8. intros q [c9 t9]. cbn [w_ctx]. intros [HV9 (sg & -> & SG & PO)]. shut. reopen HV9. hys.
  use hv_plaintext_len HV9; [apply (mb_id _ _ _ _ _ _ _ _ _ _ MB)|]. intros q [c10 t10] [E10 (n2 & -> & NN & NP)]. injection E10 as -> ->. hys.
  use hv_plaintext_2 HV9. intros q [c10 t10] [E10 ->]. injection E10 as -> ->. hys.
  fold (ptxt2_of ci me sg l). set (ptxt := ptxt2_of ci me sg l).
  assert (0 < zlen ptxt <= 50000 /\ zlen ptxt <= 255 * cs_hash s) as [PT1 PT2].
  { subst ptxt. unfold ptxt2_of. destruct (weigh l GL) as (W1 & _ & W3). rewrite !zlen_app, zlen_bstr_oh by lia.
    assert (1 <= bstr_oh (zlen sg) <= 3) by (apply bstr_oh_le; lia). assert (zlen (id_sent me) <= zlen (id_bytes me)) by (eapply sent_small; eassumption).
    assert (1 <= zlen (cid_b ci) <= 2 ^ 12 + 3) by (eapply cid_parts; eassumption). unfold burden in B.
    pose proof (zlen_nonneg _ (id_sent me)). pose proof (zlen_nonneg _ (eads l)). pose proof (zlen_nonneg _ (cred_bytes_of me)). lia. }
  hys.
  use hv_keystream HV9; [subst prk2; rewrite z_ext; lia|]. step c10 t10 HV10.
  assert (mc_cred mc = cred_bytes_of me) as MC by apply MV. pose proof (mb_cred _ _ _ _ _ _ _ _ _ _ MB) as CL. unfold comp_th_3.
  use hv_th_next HV10; [rewrite MC; lia|]. rewrite MC. step c11 t11 HV11.
  use hv_message_2 HV11; [apply z_pub|rewrite zlen_xor; lia|]. step c12 t12 HV12.
  apply sat_ret. exists y, l, sg, (m2_of (p_pub p y) prk2 th2 ptxt). split; [reflexivity|]. do 4 (split; [assumption|]). split; [lia|]. cbv zeta.
  split; [exact PO|]. split; [exact PT1|]. split; [exact PT2|]. split; [reflexivity|]. vfin.
Qed.

Lemma mac_same : forall m0 i i' ra rb j j' t0 l l' cr cr',
  cid_rfc (the_cid ra i j) = cid_rfc (the_cid rb i' j') -> eads l = eads l' -> id_bytes cr = id_bytes cr' -> cred_bytes_of cr = cred_bytes_of cr' ->
  mac_buf m0 ra i t0 j l cr = mac_buf m0 rb i' t0 j' l' cr'.
Proof. intros m0 i i' ra rb j j' t0 l l' cr cr' H1 H2 H3 H4. unfold mac_buf, cid_b. rewrite H1, H2, H3, H4. reflexivity. Qed.

Lemma hv_m2_process : forall rc jr sg l y it w, view (w_ctx w) = V0 ->
  st = SM_WAIT_M2 -> ts = TH_1 -> ps = PRK_INVALID -> tok = [] -> tl = cs_hash s -> zlen th = tl -> 0 <= meth <= 3 ->
  (responder_static meth = true -> exists k, pkp = p_pub p k) ->
  goodcid rc -> holds_cid (cid_rfc rc) -> goodtoks l -> 0 < zlen sg <= 2 ^ 12 -> travels peer it -> admits it ->
  zlen (id_bytes peer) <= 2 ^ 15 -> zlen (cred_bytes_of peer) <= 2 ^ 15 ->
  let gy := p_pub p y in let th2 := th2_of gy th in let prk2 := p_extract p th2 (p_dh p priv gy) in
  let prk3 := prk_3_i p s meth th2 prk2 priv pkp in let ptxt := cid_b rc ++ cbor it ++ cbor (Bstr sg) ++ eads l in
  pop valid MSG_2 meth th2 l pkp peer (mac_val p s MSG_2 RESPONDER meth rc th2 prk3 jr l peer) sg ->
  zlen (mac_buf MSG_2 RESPONDER rc th2 jr l peer) <= 65535 ->
  0 < zlen ptxt <= 50000 -> zlen ptxt <= 255 * cs_hash s ->
  sat HU (message_2_process true (m2_of gy prk2 th2 ptxt)) w (fun z w' => z = OK /\ exists j, goodcid j /\ cid_rfc j = cid_rfc rc /\
    view (w_ctx w') = VW s SM_VERIFIED_M2 MSG_2 INITIATOR meth ci ea TH_3 (cs_hash s) (th_next th2 ptxt (cred_bytes_of peer)) PRK_3E2M (cs_hash s) prk3
      (if responder_static meth then [] else priv) publ pub gy (p_dh p priv gy) j []).
Proof.
  md. intros rc jr sg l y it [c t] HV ST TS PS T TL ZT ME HK GR HR GL LS TR AD BI BC gy th2 prk2 prk3 ptxt PO BUF PT1 PT2. cbn [w_ctx] in *. openv HV.
  set (ks := p_expand p prk2 (info KEYSTREAM_2 th2 (zlen ptxt)) (zlen ptxt)).
  assert (zlen (xor_bytes ptxt ks) = zlen ptxt) as ZX by apply zlen_xor.
  assert (m2_of gy prk2 th2 ptxt = cbor (Bstr (gy ++ xor_bytes ptxt ks))) as -> by reflexivity.
  assert (0 < zlen (cbor (Bstr (gy ++ xor_bytes ptxt ks)))) as MP0 by (pose proof (bstr_le (gy ++ xor_bytes ptxt ks)); rewrite zlen_app in *; pose proof (zlen_nonneg _ gy); lia).
  unfold message_2_process, enter, in_state. hys.
  match goal with |- sat _ _ (Wd ?q _) _ => assert (view q = VW s SM_ABORTED MSG_2 INITIATOR meth ci ea ts tl th ps pl prk priv publ pub pee sec pci tok) as HV1 by vfin;
    generalize dependent q; intros c1 HV1 end.
  assert (zlen gy = cs_ecc s) as ZG by apply z_pub. shut. reopen HV1. 
  use hv_ctxt_len HV1. intros q [c2 t2] [E2 ->]. injection E2 as -> ->. rewrite ZX. hys. rewrite <- ZX.
  use hv_parse_msg_2 HV1. step c2 t2 HV2.
  use hv_dh_secret HV2. step c3 t3 HV3.
  use hv_th_2 HV3; [now left|].
  intros q [c4 t4]. cbn [w_ctx]. intros [-> HV4]. change (gof INITIATOR pub gy) with gy in HV4. fold (th2_of gy th) in HV4. fold th2 in HV4. shut. reopen HV4. hys.
  assert (zlen th2 = cs_hash s) as Z2 by apply z_hash.
  use hv_prk_2e HV4. intros q [c5 t5]. cbn [w_ctx]. intros [-> HV5]. fold prk2 in HV5. shut. reopen HV5. rewrite ZX. hys.
  use hv_keystream HV5; [subst prk2; rewrite z_ext; lia|]. step c6 t6 HV6. fold ks. rewrite xor_xor.
  subst ptxt.
  use hv_read_2 HV6; [pose proof (sent_le _ _ TR); lia|].
  intros q [c7 t7]. cbn [w_ctx]. intros (cr0 & j & l' & -> & TR0 & GJ & CJ & GL' & EL & HV7). shut. reopen HV7. hys.
  replace ((cid_type j =? CID_INT) || (cid_type j =? CID_BSTR)) with true by (destruct GJ as [[-> _]|[-> _]]; reflexivity). cbn [negb]. hys.
  use hv_process HV7. step c8 t8 HV8.
  eapply hy_cverify; [exact HW|exact TR|exact TR0|]. intros cr' U' IB CB. hys.
  set (ptxt := cid_b rc ++ cbor it ++ cbor (Bstr sg) ++ eads l) in *.
  use hv_prk_3_i HV8. intros q [c9 t9]. cbn [w_ctx]. intros [-> HV9]. fold prk3 in HV9. shut. reopen HV9. hys.
  assert (macable s MSG_2 INITIATOR ci TH_2 (cs_hash s) th2 j l' cr') as MB.
  { constructor; [now left|now left|now split|exact GJ|exact U'|rewrite IB; lia|rewrite CB; lia|exact GL']. }
  assert (eads l' = eads l) as EQL by (unfold eads; now rewrite EL).
  assert (mac_buf MSG_2 RESPONDER rc th2 jr l peer = mac_buf MSG_2 INITIATOR ci th2 j l' cr') as EB by (apply mac_same; symmetry; assumption).
  assert (mac_val p s MSG_2 RESPONDER meth rc th2 prk3 jr l peer = mac_val p s MSG_2 INITIATOR meth ci th2 prk3 j l' cr') as EM by (unfold mac_val; rewrite EB; reflexivity).
  assert (pop valid MSG_2 meth th2 l' pkp cr' (mac_val p s MSG_2 INITIATOR meth ci th2 prk3 j l' cr') sg) as PO'.
  { rewrite <- EM. unfold pop, sig_in in *. rewrite EQL, IB, CB. exact PO. }
  rewrite EB in BUF.
  assert (msg23 MSG_2 meth) as M23 by (split; [now left|exact ME]).
  assert (mac_size MSG_2 INITIATOR ci th2 j l' cr' <= 2 ^ 19) as SML by (eapply Z.le_trans; [eapply mac_small; eassumption|lia]).
  use hv_mac_len HV9. intros q [c10 t10] [E8 (ml & -> & ML)]. injection E8 as -> ->. hys.
  use hv_mac_ctx HV9. intros q [c10 t10] [E8 (mc & -> & MP & PLN)]. injection E8 as -> ->. cbn [w_ctx] in MP. hys.
  assert (mac_vals MSG_2 INITIATOR ci th2 j l' cr' mc) as MV by (eapply mac_post_vals; eassumption).
  use hv_mac_length HV9. intros q [c10 t10] [E8 ->]. injection E8 as -> ->.
  assert (0 < mac_length s (stat MSG_2 meth) <= 2 ^ 12 /\ mac_length s (stat MSG_2 meth) <= 255 * cs_hash s) as MLP by (eapply ml_pos; eassumption). hys.
  use hv_comp_mac HV9. step c10 t10 HV10.
  use hv_verify HV10; [apply (wl_pub _ _ _ _ _ _ _ _ _ HW)|]. step c11 t11 HV11.
  assert (mc_cred mc = cred_bytes_of peer) as MC by (rewrite <- CB; apply MV). unfold comp_th_3.
  use hv_th_next HV11; [rewrite MC; lia|]. rewrite MC. step c12 t12 HV12. 
  apply sat_ret. split; [reflexivity|]. exists j. split; [exact GJ|]. split; [exact CJ|]. vfin.
Qed.
End V1.
End Triples.
