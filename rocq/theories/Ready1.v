(** Message 1 between willing parties. *)
From Verif Require Import Monad Api Common Msg1 Msg2 Msg3 Rfc Uses Conform Received Sessions Safety
  Facts Logic Sym CborProofs RfcProofs CodecProofs RoundTrip Steps Steps2 Steps3 Claims3 Agree Ready ReadyStep ReadyLib ReadyMac ReadyWire ReadyMsg ReadyRead Run1 Fresh MemProofs.

Section Triples.
Context {E : env}.
Variables (p : primitives) (valid : bytes -> bytes -> bytes -> Prop) (s : csuite) (me : creds)
  (sk pk : bytes) (peer : creds) (pkp : bytes) (room : Z).
Hypothesis HW : willing p valid s me sk pk peer pkp room.
Hypothesis SZ : sized p s.
Hypothesis MD : modest s.
Lemma z_heap : 0 <= cf_sizeof_mac. Proof. now destruct (wl_heap _ _ _ _ _ _ _ _ _ HW). Qed.
Let z_hash : forall x, zlen (p_hash p (cs_hash s) x) = cs_hash s. Proof. apply SZ. Qed.
Let z_ext : forall x y, zlen (p_extract p x y) = cs_hash s. Proof. apply SZ. Qed.
Let z_exp : forall x i n, 0 < n -> zlen (p_expand p x i n) = n. Proof. apply SZ. Qed.
Let z_pub : forall x, zlen (p_pub p x) = cs_ecc s. Proof. apply SZ. Qed.
Let z_dh : forall x y, zlen (p_dh p x y) = cs_ecc s. Proof. apply SZ. Qed.
Let z_enc : forall k n a x, zlen (p_enc p k n a x) = zlen x + cs_tag s. Proof. apply SZ. Qed.
Ltac md := pose proof z_heap as MDz; pose proof MD as MD'; unfold modest in MD';
  destruct MD' as (MDh & MDm & MDk & MDi & MDe & MDs & MDt & MDx & MDy).
Ltac zl := rewrite ?z_hash, ?z_ext, ?z_pub, ?z_dh, ?z_enc, ?Z.eqb_refl; cbn [negb orb andb].
Section V1.
Variables (st m r meth : Z) (ci : conn_id) (ea : ead_fns) (ts tl : Z) (th : bytes) (ps pl : Z)
  (prk priv : bytes) (publ : Z) (pub pee sec : bytes) (pci : conn_id) (tok : list token).
Local Notation V0 := (VW s st m r meth ci ea ts tl th ps pl prk priv publ pub pee sec pci tok).
Lemma head_le : forall a b, zlen (head a b) <= 9.
Proof. intros. rewrite zlen_head. unfold arg_width. repeat match goal with |- context [if ?q then _ else _] => destruct q end; lia. Qed.
Lemma enc_int_le : forall v, zlen (enc_int v) <= 9.
Proof. intro v. rewrite enc_int_rfc. cbn [cbor]. destruct (v <? 0); apply head_le. Qed.
Lemma suites_le : forall su b, enc_suites su = Some b -> zlen b <= 36.
Proof.
  intros [v|l] b H; cbn [enc_suites] in H.
  - injection H as <-. pose proof (enc_int_le v). lia.
  - destruct ((2 <=? zlen l) && (zlen l <=? 3)) eqn:L; [|discriminate]. injection H as <-. rewrite zlen_app, enc_head_rfc.
    pose proof (head_le 4 (zlen l)). assert (zlen (concat (map enc_int l)) <= 9 * zlen l); [|lia].
    clear L H. induction l as [|x l IH]; [cbn; lia|]. cbn [map concat]. rewrite zlen_app, zlen_cons. pose proof (enc_int_le x). lia.
Qed.
Lemma m1_pre : forall me su g ic, zlen g = cs_ecc s -> goodcid ic -> (forall l, su = SuList l -> 2 <= zlen l <= 3) ->
  exists pre, enc_message_1 me su g (if cid_type ic =? CID_INT then CidInt (cid_int ic) else CidBstr (cid_bstr ic)) None = Some pre /\
    pre = cbor_seq (message_1_items me (suites_list su) g (cid_rfc ic) []) /\ zlen pre <= 2 ^ 14.
Proof.
  md. intros me0 su g ic L G SU. set (cv := if cid_type ic =? CID_INT then _ else _).
  assert (exists cb, enc_cidv cv = Some cb /\ zlen cb <= 2 ^ 12 + 3 /\ cid_of_v cv = cid_rfc ic) as (cb & C1 & C2 & C3).
  { subst cv. unfold cid_rfc. destruct G as [[-> V]|[-> V]].
    - change (CID_INT =? CID_INT) with true. cbn [enc_cidv]. replace ((-24 <=? cid_int ic) && (cid_int ic <=? 23)) with true by lia.
      eexists. split; [reflexivity|]. pose proof (enc_int_le (cid_int ic)). split; [lia|reflexivity].
    - change (CID_BSTR =? CID_INT) with false. cbn [enc_cidv]. eexists. split; [reflexivity|]. split; [|reflexivity].
      rewrite zlen_enc_bstr by lia. assert (bstr_oh (zlen (cid_bstr ic)) <= 3) by (apply bstr_oh_le; lia). lia. }
  assert (exists sb, enc_suites su = Some sb) as [sb S1].
  { destruct su as [v|l]; [now eexists|]. specialize (SU l eq_refl). cbn [enc_suites]. replace ((2 <=? zlen l) && (zlen l <=? 3)) with true by lia. now eexists. }
  pose proof (suites_le _ _ S1). eexists. split; [unfold enc_message_1; rewrite S1, C1; reflexivity|]. split.
  - rewrite <- C3. apply enc_message_1_rfc. unfold enc_message_1. rewrite S1, C1. reflexivity.
  - rewrite !zlen_app, zlen_enc_bstr by lia. assert (bstr_oh (zlen g) <= 3) by (apply bstr_oh_le; lia). pose proof (enc_int_le me0). lia.
Qed.
Lemma eads1_len : forall l, Forall goodtok l -> ead_weight l <= 65535 -> zlen (cbor_seq (flat_map ead_items (map ead1_of l))) <= ead_len_of l.
Proof.
  induction 1 as [|k l H F IH]; [reflexivity|]. unfold ead_weight, ead_len_of, cbor_seq, zsum in *. cbn [map fold_right flat_map]. intro L.
  pose proof (tok_len_pos k H). pose proof (weight_nonneg l F) as W. unfold ead_weight, zsum in W. specialize (IH ltac:(lia)).
  rewrite flat_map_app, zlen_app.
  assert (zlen (flat_map cbor (ead_items (ead1_of k))) <= int_mem_req (tk_label k) + zs_len (tk_val k) + bstr_oh (zs_len (tk_val k))); [|lia].
  destruct H as [K1 K2]. rewrite int_size_exact by assumption. unfold ead1_of, ead_items. unfold tok_fits in K1. cbn [fst snd flat_map app].
  assert (zlen (take (zs_len (tk_val k)) (match zs_ptr (tk_val k) with Some b => b | None => [] end)) = zs_len (tk_val k)) as ZT.
  { destruct (zs_ptr (tk_val k)) as [b|]; [now apply zlen_take|]. now rewrite K1. }
  rewrite app_nil_r, zlen_app, zlen_bstr_oh; rewrite ZT; lia.
Qed.
Lemma hv_m1_compose : forall n s0 me0 w, view (w_ctx w) = VW s0 st m r me0 ci ea ts tl th ps pl prk priv publ pub pee sec pci tok ->
  my_suite (w_ctx w) = s -> my_method (w_ctx w) = meth -> 1 <= c_csuite_len (w_ctx w) <= 3 ->
  st = SM_START -> ts = TH_INVALID -> ps = PRK_INVALID -> tok = [] -> goodcid ci -> 0 <= cf_max_ead <= 3 -> cs_ecc s <= cf_max_ecc -> 0 <= room <= 2 ^ 15 -> 65536 <= n ->
  sat HU (message_1_compose true n) w (fun y w' => exists x l m1, y = (OK, m1) /\ zlen x = cs_ecc s /\ goodtoks l /\ zlen l <= cf_max_ead /\
    m1 = cbor_seq (message_1_items meth (suite_values (w_ctx w)) (p_pub p x) (cid_rfc ci) (map ead1_of l)) /\ 0 < zlen m1 <= 65536 /\
    view (w_ctx w') = VW s SM_WAIT_M2 MSG_1 INITIATOR meth ci ea TH_1 (cs_hash s) (p_hash p (cs_hash s) m1) ps pl prk x publ pub pee sec pci []).
Proof.
  md. intros n s0 me0 [c t] HV S1 M1 SL ST TS PS T GC ME EC RM N. cbn [w_ctx] in *. openv HV. clear Vs Vmeth.
  unfold message_1_compose, enter, in_state. hys.
  unfold my_suite in S1. unfold my_method in M1.
  match goal with |- context [the_suite ?x] => replace (the_suite x) with s by (symmetry; unfold the_suite, csuite_at; cs; exact S1) end.
  hys. rewrite H0, z_pub. hys.
  assert ((cid_type ci =? CID_INT) || (cid_type ci =? CID_BSTR) = true) as -> by (destruct GC as [[-> _]|[-> _]]; reflexivity).
  cbn [negb]. hys.
  match goal with |- sat _ _ (Wd ?x _) _ => assert (view x = VW s SM_ABORTED MSG_1 INITIATOR meth ci ea ts tl th ps pl prk priv0 publ pub pee sec pci tok) as HV1
  end. { vfin. }
  eapply sat_conseq; [eapply hv_compose; first [exact HW|exact SZ|exact MD|exact HV1|assumption]|].
  intros y [c2 t2] (-> & l & GL & LL & WL & HV2). cbn [w_ctx] in HV2. shut. reopen HV2. hys.
  set (su := if c_csuite_len c =? 1 then _ else _).
  assert (suites_list su = suite_values c) as SU1.
  { subst su. destruct (c_csuite_len c =? 1) eqn:L1; [|reflexivity]. apply Z.eqb_eq in L1. rewrite (suite_values_1 _ L1). unfold csuite_at. now rewrite S1. }
  assert (forall l0, su = SuList l0 -> 2 <= zlen l0 <= 3) as SU2.
  { intros l0 E0. subst su. destruct (c_csuite_len c =? 1) eqn:L1; [discriminate|]. injection E0 as <-. unfold suite_values, zlen. rewrite map_length, seq_length. lia. }
  destruct (m1_pre (nth 0 (c_methods c) 0) su (p_pub p priv0) ci (z_pub _) GC SU2) as (pre & P1 & P2 & P3). rewrite P1. rewrite SU1 in P2.
  destruct GL as (F & N3 & W).
  apply sat_conseq with (P := fun e w' => w' = Wd c2 t2 /\ exists m1, e = Some m1 /\ 0 < zlen m1 <= 65536 /\
    m1 = cbor_seq (message_1_items meth (suite_values c) (p_pub p priv0) (cid_rfc ci) (map ead1_of l))).
  { assert (0 < zlen pre) as PP by (eapply enc_m1_pos; exact P1).
    destruct (zlen l =? 0) eqn:Z0.
    - apply sat_ret. split; [reflexivity|]. rewrite fits_ok by lia. eexists. split; [reflexivity|]. split; [lia|].
      apply Z.eqb_eq, zlen_0 in Z0. rewrite P2, M1, Z0. cbn [map]. reflexivity.
    - apply sat_bind. pose proof (ead_len_weight l F ltac:(lia)). 
      eapply sat_conseq; [apply sat_both; [apply hv_encode_tokens; [now repeat split|lia|lia]|apply ok_encode_tokens1]|].
      intros e w' [[-> [b ->]] [_ K]]. destruct (K b eq_refl) as [-> _]. apply sat_ret. split; [reflexivity|].
      assert (zlen (cbor_seq (flat_map ead_items (map ead1_of l))) <= ead_len_of l) as EL by (apply eads1_len; [exact F|lia]).
      rewrite fits_ok by (rewrite zlen_app; lia). eexists. split; [reflexivity|]. rewrite zlen_app. pose proof (zlen_nonneg _ (cbor_seq (flat_map ead_items (map ead1_of l)))). split; [lia|].
      rewrite P2, M1. unfold message_1_items. rewrite <- cbor_seq_app, app_nil_r. reflexivity. }
  intros e w' [-> (m1 & -> & L1 & E1)]. hys.
  eapply sat_conseq; [eapply hv_hash_th; first [exact HW|exact SZ|exact MD|exact HV2|assumption]|]. intros z [c3 t3] [-> HV3]. cbn [w_ctx] in HV3. reopen HV3.
  hys. apply sat_ret. exists priv0, l, m1. split; [reflexivity|]. split; [assumption|]. split; [now repeat split|]. split; [exact LL|]. split; [exact E1|]. split; [exact L1|]. vfin.
Qed.

(** What an honest message 1 decodes to, field by field. *)
Lemma message_1_exact : forall canon mt suites gx ic l,
  int32 mt -> 1 <= zlen suites <= 3 -> Forall int32 suites -> zlen gx < 2 ^ 64 -> cid_ok ic ->
  Forall ead_fits l -> zlen l <= 3 ->
  exists d, dec_message_1 canon (cbor_seq (message_1_items mt suites gx ic l)) = (true, d, []) /\
    m1_method d = mt /\
    (m1_su_choice d = 1 /\ suites = [m1_su_int d] \/ m1_su_choice d = 0 /\ m1_su_list d = suites) /\
    zs_len (m1_gx d) = zlen gx /\ (exists r, zs_ptr (m1_gx d) = Some (gx ++ r)) /\
    match ic with
    | CNum v => m1_ci_choice d = 1 /\ m1_ci_int d = v
    | CBytes b => m1_ci_choice d = 0 /\ zs_len (m1_ci_bstr d) = zlen b /\ exists r, zs_ptr (m1_ci_bstr d) = Some (b ++ r)
    end /\
    zlen (m1_ead d) = zlen l.
Proof.
  intros canon mt suites gx ic l Hm Hs1 Hs2 Hg Hc Hl1 Hl2.
  unfold message_1_items, cbor_seq. cbn [app flat_map]. unfold dec_message_1. cbv zeta.
  rewrite int_dec by (assumption || lia).
  rewrite (suites_p_rt canon (suites_v suites) _ _ _ (suites_v_ok _ Hs1 Hs2) (suites_v_enc _ Hs1)) by lia.
  set (sr := match suites_v suites with SuInt v => SR true 1 [] v | SuList l0 => SR true 0 l0 0 end).
  assert (sr_ok sr = true /\ (sr_choice sr = 1 /\ suites = [sr_int sr] \/ sr_choice sr = 0 /\ sr_list sr = suites)) as [SU1 SU2].
  { subst sr. destruct suites as [|x [|y q]]; [cbn in Hs1; lia|split; [reflexivity|now left]|split; [reflexivity|now right]]. }
  rewrite SU1. cbn [negb].
  rewrite str_p_dec by (assumption || lia).
  fold (cbor_seq (flat_map ead_items l)).
  assert (forall tk, map ead_of tk = l -> zlen tk = zlen l) as ZL by (intros tk <-; unfold zlen; now rewrite map_length).
  destruct ic as [v|b]; cbn [cid_item cid_ok] in *.
  - rewrite num_not_str by (unfold int32; lia). rewrite int_dec by (unfold int32; lia).
    replace ((-24 <=? v) && (v <=? 23)) with true by lia.
    destruct (ead_rt canon l (10 - 1 - 1 - 1 - 1) Hl1 Hl2) as (ok & tk & ec' & A & B & C & D); [lia|]. rewrite A.
    eexists. split; [reflexivity|]. cbn [m1_method m1_gx m1_ead m1_ead_present m1_su_choice m1_su_int m1_su_list m1_ci_choice m1_ci_int zs_len zs_ptr].
    split; [reflexivity|]. split; [exact SU2|]. split; [reflexivity|]. split; [eexists; reflexivity|]. split; [split; reflexivity|]. now apply ZL.
  - rewrite str_p_dec by (assumption || lia).
    destruct (ead_rt canon l (10 - 1 - 1 - 1 - 1) Hl1 Hl2) as (ok & tk & ec' & A & B & C & D); [lia|]. rewrite A.
    eexists. split; [reflexivity|]. cbn [m1_method m1_gx m1_ead m1_ead_present m1_su_choice m1_su_int m1_su_list m1_ci_choice m1_ci_int m1_ci_bstr zs_len zs_ptr].
    split; [reflexivity|]. split; [exact SU2|]. split; [reflexivity|]. split; [eexists; reflexivity|]. split; [|now apply ZL].
    split; [reflexivity|]. split; [reflexivity|]. eexists. reflexivity.
Qed.
Lemma good_fits1 : forall l, goodtoks l -> Forall ead_fits (map ead1_of l).
Proof.
  intros l (F & _ & W). revert W. induction F as [|k l H F IH]; intro W; constructor.
  - pose proof (tok_len_pos k H). pose proof (weight_nonneg l F) as W'. unfold ead_weight, zsum in W, W'. cbn [map fold_right] in W.
    split; [destruct H as [_ H]; cbn [ead1_of fst]; unfold int32; lia|]. cbn [ead1_of snd].
    assert (zlen (take (zs_len (tk_val k)) (match zs_ptr (tk_val k) with Some b => b | None => [] end)) <= zs_len (tk_val k)) by (apply zlen_take_le; lia). lia.
  - apply IH. pose proof (tok_len_pos k H). unfold ead_weight, zsum in *. cbn [map fold_right] in W. lia.
Qed.

Lemma hv_m1_process : forall suites ic l m1 x s0 me0 w, view (w_ctx w) = VW s0 st m r me0 ci ea ts tl th ps pl prk priv publ pub pee sec pci tok ->
  st = SM_START -> ts = TH_INVALID -> ps = PRK_INVALID -> tok = [] ->
  my_suite (w_ctx w) = s -> 1 <= c_csuite_len (w_ctx w) -> c_peer_csuite_len (w_ctx w) = 0 -> In meth (method_values (w_ctx w)) ->
  m1 = cbor_seq (message_1_items meth suites (p_pub p x) (cid_rfc ic) (map ead1_of l)) -> 0 < zlen m1 ->
  int32 meth -> 1 <= zlen suites <= 3 -> zlen suites <= cf_max_suites -> Forall int32 suites -> last suites 0 = cs_value s ->
  goodcid ic -> holds_cid (cid_rfc ic) -> goodtoks l -> zlen l <= cf_max_ead -> cs_ecc s <= cf_max_ecc ->
  sat HU (message_1_process true m1) w (fun y w' => y = OK /\ exists j, goodcid j /\ cid_rfc j = cid_rfc ic /\
    view (w_ctx w') = VW s SM_RECEIVED_M1 MSG_1 RESPONDER meth ci ea TH_1 (cs_hash s) (p_hash p (cs_hash s) m1) ps pl prk priv publ pub (p_pub p x) sec j []).
Proof.
  md. intros suites ic l m1 x s0 me0 [c t] HV ST TS PS T S1 SL PL IM E1 L1 I32 SS SM SF LS GC HC GL LL EC. cbn [w_ctx] in *. openv HV. clear Vs Vmeth.
  unfold message_1_process, enter, in_state. hys.
  destruct (message_1_exact cf_canon meth suites (p_pub p x) (cid_rfc ic) (map ead1_of l)) as (d & D & DM & DS & DG1 & (rg & DG2) & DC & DE); try assumption.
  { rewrite z_pub. lia. }
  { eapply cid_ok_good; eassumption. }
  { now apply good_fits1. }
  { unfold zlen. rewrite map_length. apply GL. }
  rewrite <- E1 in D. rewrite D. cbn [negb andb]. hys.
  unfold my_suite in S1.
  match goal with |- context [the_suite ?x] => replace (the_suite x) with s by (symmetry; unfold the_suite, csuite_at; cs; exact S1) end.
  assert (existsb (fun m0 => m0 =? m1_method d) (method_values c) = true) as -> by (apply existsb_exists; exists meth; split; [exact IM|lia]).
  cbn [negb]. hys.

  apply sat_conseq with (P := fun a w' => a = OK /\ view (w_ctx w') = VW s SM_ABORTED MSG_1 RESPONDER meth ci ea ts tl th ps pl prk priv publ pub pee sec pci tok).
  { destruct DS as [[DS1 DS2]|[DS1 DS2]]; rewrite DS1.
    - rewrite DS2 in LS. cbn [last] in LS. change (1 =? 1) with true. cbv iota. apply sat_bind, hu_check; [hu|intros _]. hys.
      rewrite ?LS, ?Z.eqb_refl. cbn [negb]. apply sat_ret. split; [reflexivity|]. vfin.
    - change (0 =? 1) with false. change (0 =? 0) with true. cbv iota. rewrite DS2.
      replace (zlen suites =? 0) with false by lia. replace (cf_max_suites <? zlen suites) with false by lia. hys.
      rewrite ?LS, ?Z.eqb_refl. cbn [negb]. apply sat_ret. split; [reflexivity|]. vfin. }
  intros a [c2 t2] [-> HV2]. cbn [w_ctx] in HV2. shut. reopen HV2. rewrite DG1, z_pub. hys. rewrite DG2.
  apply hu_rd_ptr; [apply z_pub|]. hys.
  match goal with |- sat _ _ (Wd ?q _) _ => assert (view q = VW s SM_ABORTED MSG_1 RESPONDER meth ci ea ts tl th ps pl prk priv publ pub (p_pub p x) sec pci tok) as HV3 by vfin;
    generalize dependent q; intros c3 HV3 end. shut. reopen HV3. hys.
  apply sat_conseq with (P := fun a w' => a = OK /\ exists j, goodcid j /\ cid_rfc j = cid_rfc ic /\ view (w_ctx w') = VW s SM_ABORTED MSG_1 RESPONDER meth ci ea ts tl th ps pl prk priv publ pub (p_pub p x) sec j tok).
  { assert (cid_ok (cid_rfc ic)) as CO by (eapply cid_ok_good; eassumption). destruct (cid_rfc ic) as [v|b] eqn:CI; cbn [cid_ok] in CO.
    - destruct DC as [-> ->]. change (1 =? 1) with true. cbv iota. replace ((v <? -24) || (23 <? v)) with false by lia. rewrite i8_range by assumption.
      hys. apply sat_ret. split; [reflexivity|]. exists (CID CID_INT v (cid_bstr pci)). split; [now left|]. split; [reflexivity|]. vfin.
    - destruct DC as (-> & -> & rb & ->). change (0 =? 1) with false. change (0 =? 0) with true. cbv iota. specialize (HC b eq_refl).
      replace (cf_max_cid + 1 <? zlen b) with false by lia. apply sat_bind, hu_rd_ptr; [reflexivity|]. hys. apply sat_ret. split; [reflexivity|].
      exists (CID CID_BSTR (cid_int pci) b). split; [|split; [reflexivity|vfin]]. right. split; [reflexivity|]. cbn [cid_bstr].
      unfold cid_rfc in CI. destruct GC as [[Q _]|[Q ?]]; rewrite Q in CI; [discriminate|]. change (CID_BSTR =? CID_INT) with false in CI. now injection CI as <-. }
  intros a [c4 t4] [-> (j & J1 & J2 & HV4)]. cbn [w_ctx] in HV4. shut. reopen HV4. hys.
  apply sat_conseq with (P := fun a w' => a = OK /\ view (w_ctx w') = VW s SM_ABORTED MSG_1 RESPONDER meth ci ea ts tl th ps pl prk priv publ pub (p_pub p x) sec j []).
  { destruct (m1_ead_present d); [destruct (f_process ea) as [f|]|]; [|apply sat_ret; split; [reflexivity|rewrite <- T; exact HV4]..].
    assert (zlen (m1_ead d) <= cf_max_ead) by (rewrite DE; unfold zlen; rewrite map_length; exact LL).
    replace (cf_max_ead <? zlen (m1_ead d)) with false by lia. hys. apply sat_ret. split; [reflexivity|]. vfin. }
  intros a [c5 t5] [-> HV5]. cbn [w_ctx] in HV5. shut. reopen HV5. hys.
  eapply sat_conseq; [eapply hv_hash_th; first [exact HW|exact SZ|exact MD|exact HV5|assumption]|]. intros z [c6 t6] [-> HV6]. cbn [w_ctx] in HV6. shut. reopen HV6.
  hys. apply sat_ret. split; [reflexivity|]. exists j. split; [exact J1|]. split; [exact J2|]. vfin.
Qed.
End V1.
End Triples.
