(** The helpers of the message calls in a willing environment: what they return and leave. *)
From Verif Require Import Monad Api Common Msg1 Msg2 Msg3 Rfc Uses Conform Received Sessions Safety
  Facts Logic Sym CborProofs RfcProofs CodecProofs Steps Steps2 Steps3 Ready ReadyStep.

Lemma vw_eq : forall s st m r meth ci ea ts tl th ps pl prk priv publ pub pee sec pci tok
  s' st' m' r' meth' ci' ea' ts' tl' th' ps' pl' prk' priv' publ' pub' pee' sec' pci' tok',
  s = s' -> st = st' -> m = m' -> r = r' -> meth = meth' -> ci = ci' -> ea = ea' -> ts = ts' -> tl = tl' ->
  th = th' -> ps = ps' -> pl = pl' -> prk = prk' -> priv = priv' -> publ = publ' -> pub = pub' -> pee = pee' ->
  sec = sec' -> pci = pci' -> tok = tok' ->
  VW s st m r meth ci ea ts tl th ps pl prk priv publ pub pee sec pci tok =
  VW s' st' m' r' meth' ci' ea' ts' tl' th' ps' pl' prk' priv' publ' pub' pee' sec' pci' tok'.
Proof. intros. subst. reflexivity. Qed.
Ltac openv H :=
  let H' := fresh in pose proof H as H'; unfold view in H';
  injection H' as Vs Vst Vm Vr Vmeth Vci Vea Vts Vtl Vth Vps Vpl Vprk Vpriv Vpubl Vpub Vpeer Vsec Vpc Vtok.
Ltac v1 f := match goal with H : f _ = ?v |- context [f ?x] =>
  lazymatch x with v => fail | _ => replace (f x) with v by (symmetry; exact H) end end.
Ltac vr := repeat first [ v1 the_suite | v1 c_status | v1 c_message | v1 c_role | v1 c_chosen_method
  | v1 c_cid | v1 c_ead | v1 c_th_state | v1 c_th_len | v1 th_of | v1 c_prk_state | v1 c_prk_len | v1 prk_of
  | v1 priv_of | v1 c_dh_pub_len | v1 pub_of | v1 peer_of | v1 secret_of | v1 c_peer_cid | v1 c_tokens ].
Ltac ra := rewrite ?arr_read_blit, ?blit_zeros_exact by first [assumption|solve [auto]|lia].
Ltac vfin := unfold view, the_suite, csuite_at, th_of, prk_of, priv_of, pub_of, peer_of, secret_of in *;
  cs; ra; apply vw_eq; first [assumption | reflexivity].
Ltac hys := repeat (hy; vr).

Section Triples.
Context {E : env}.
Variables (p : primitives) (valid : bytes -> bytes -> bytes -> Prop) (s : csuite) (me : creds)
  (sk pk : bytes) (peer : creds) (pkp : bytes) (room : Z).
Hypothesis HW : willing p valid s me sk pk peer pkp room.
Hypothesis SZ : sized p s.
Hypothesis MD : modest s.
Lemma z_heap : 0 <= cf_sizeof_mac. Proof. now destruct (wl_heap _ _ _ _ _ _ _ _ _ HW). Qed.
Let z_hash : forall x, zlen (p_hash p (cs_hash s) x) = cs_hash s. Proof. apply SZ. Qed.
Let z_ext : forall x y, zlen (p_extract p x y) = cs_hash s. Proof. apply SZ. Qed.
Let z_exp : forall x i n, 0 < n -> zlen (p_expand p x i n) = n. Proof. apply SZ. Qed.
Let z_pub : forall x, zlen (p_pub p x) = cs_ecc s. Proof. apply SZ. Qed.
Let z_dh : forall x y, zlen (p_dh p x y) = cs_ecc s. Proof. apply SZ. Qed.
Let z_enc : forall k n a x, zlen (p_enc p k n a x) = zlen x + cs_tag s. Proof. apply SZ. Qed.
Ltac md := pose proof z_heap as MDz; pose proof MD as MD'; unfold modest in MD';
  destruct MD' as (MDh & MDm & MDk & MDi & MDe & MDs & MDt & MDx & MDy).
Ltac zl := rewrite ?z_hash, ?z_ext, ?z_pub, ?z_dh, ?z_enc, ?Z.eqb_refl; cbn [negb orb andb].
Section V1.
Variables (st m r meth : Z) (ci : conn_id) (ea : ead_fns) (ts tl : Z) (th : bytes) (ps pl : Z)
  (prk priv : bytes) (publ : Z) (pub pee sec : bytes) (pci : conn_id) (tok : list token).
Local Notation V0 := (VW s st m r meth ci ea ts tl th ps pl prk priv publ pub pee sec pci tok).

Lemma hv_kdf : forall ex len label cxm prm n cx k w,
  view (w_ctx w) = V0 ->
  (forall t, sat HU cxm (Wd (w_ctx w) t) (fun a w' => a = cx /\ w' = Wd (w_ctx w) t)) ->
  (forall t, sat HU prm (Wd (w_ctx w) t) (fun a w' => a = k /\ w' = Wd (w_ctx w) t)) ->
  -65536 <= label <= 65535 -> zlen cx <= 65535 -> 0 < n <= 65535 -> n <= 255 * cs_hash s ->
  len = int_mem_req label + (zlen cx + bstr_oh (zlen cx)) + int_mem_req (i32 n) ->
  sat HU (kdf ex len label cxm prm n) w (fun y w' =>
    y = (OK, p_expand p k (info label cx n) n) /\ view (w_ctx w') = V0).
Proof.
  md. intros ex len label cxm prm n cx k [c t] HV H1 H2 L1 L2 L3 L4 LE. cbn [w_ctx] in *. openv HV.
  destruct (info_len label cx n L1 L2) as [I1 I2]; [lia|].
  pose proof (bstr_oh_le (zlen cx) L2). pose proof (imr_le label). pose proof (imr_le (i32 n)).
  unfold kdf. hys. eapply sat_conseq; [apply H1|]. intros a w' [-> ->].
  rewrite I1, fits_ok by lia.
  replace (ex && negb (zlen (info label cx n) =? len)) with false by (destruct ex; cbn [andb]; [|reflexivity]; symmetry; apply negb_false_iff, Z.eqb_eq; lia).
  hy. eapply sat_conseq; [apply H2|]. intros a w' [-> ->].
  hys. apply sat_ret. split; [|exact HV].
  rewrite blit_zeros_exact by (apply z_exp; lia). reflexivity.
Qed.
Lemma hv_get_th : forall c t, th_of c = th -> sat HU get_th (Wd c t) (fun a w' => a = th /\ w' = Wd c t).
Proof. intros c t H. hy. now rewrite H. Qed.
Lemma hv_get_prk : forall c t, prk_of c = prk -> sat HU get_prk (Wd c t) (fun a w' => a = prk /\ w' = Wd c t).
Proof. intros c t H. hy. now rewrite H. Qed.

Lemma hv_gen_dh : forall w, view (w_ctx w) = V0 ->
  sat HU gen_dh_keys w (fun y w' => y = OK /\ exists x, zlen x = cs_ecc s /\
    view (w_ctx w') = VW s st m r meth ci ea ts tl th ps pl prk x (cs_ecc s) (p_pub p x) pee sec pci tok).
Proof.
  md. intros [c t] HV. cbn [w_ctx] in HV. openv HV. unfold gen_dh_keys.
  hys.
  rewrite H0. zl. apply sat_ret. split; [reflexivity|]. exists priv0. split; [assumption|].
  vfin.
Qed.
Lemma hv_dh_secret : forall w y, pee = p_pub p y -> view (w_ctx w) = V0 ->
  sat HU comp_dh_secret w (fun z w' => z = OK /\
    view (w_ctx w') = VW s st m r meth ci ea ts tl th ps pl prk priv publ pub pee (p_dh p priv pee) pci tok).
Proof.
  md. intros [c t] y HP HV. cbn [w_ctx] in HV. openv HV. unfold comp_dh_secret.
  hys. rewrite HP. hys.
  zl. apply sat_ret. split; [reflexivity|]. rewrite <- HP.
  vfin.
Qed.

Lemma hv_hash_th : forall x w, view (w_ctx w) = V0 ->
  sat HU (hash_into_th (cs_hash s) x) w (fun z w' => z = (OK, cs_hash s) /\ view (w_ctx w') = VW s st m r meth ci ea ts (cs_hash s) (p_hash p (cs_hash s) x) ps pl prk priv publ pub pee sec pci tok).
Proof.
  md. intros x [c t] HV. cbn [w_ctx] in HV. openv HV. unfold hash_into_th. hys.
  zl. apply sat_ret. split; [reflexivity|]. vfin.
Qed.
End V1.
Section V2.
Variables (st m r meth : Z) (ci : conn_id) (ea : ead_fns) (ts tl : Z) (th : bytes) (ps pl : Z)
  (prk priv : bytes) (publ : Z) (pub pee sec : bytes) (pci : conn_id) (tok : list token).
Local Notation V0 := (VW s st m r meth ci ea ts tl th ps pl prk priv publ pub pee sec pci tok).

Definition gof : bytes := if r =? INITIATOR then pee else pub.
Definition roles : Prop := r = INITIATOR \/ r = RESPONDER.
Lemma roles_ok : forall c, c_role c = r -> roles -> role_ok c = true.
Proof. intros c H [K|K]; unfold role_ok; now rewrite H, K. Qed.
Lemma hv_th_2 : forall w, view (w_ctx w) = V0 -> ts = TH_1 -> roles -> zlen gof = cs_ecc s -> zlen th = cs_hash s ->
  sat HU comp_th_2 w (fun z w' => z = OK /\
    view (w_ctx w') = VW s st m r meth ci ea TH_2 (cs_hash s) (p_hash p (cs_hash s) (cbor_seq [Bstr gof; Bstr th]))
                         ps pl prk priv publ pub pee sec pci tok).
Proof.
  md. intros [c t] HV HS RO LG LT. cbn [w_ctx] in HV. openv HV. unfold comp_th_2.
  pose proof (bstr_oh_le (cs_ecc s)). pose proof (bstr_oh_le (cs_hash s)).
  hys. rewrite (roles_ok _ Vr RO). cbn [negb]. hy.
  apply sat_conseq with (P := fun a w' => a = gof /\ w_ctx w' = c).
  { unfold gof. destruct (r =? INITIATOR); hys; auto. }
  intros a [c' t'] [-> EC]. cbn [w_ctx] in EC. subst c'.
  rewrite fits_ok by (rewrite zlen_enc_bstr, LG; lia). rewrite zlen_enc_bstr, LG, Z.eqb_refl by lia. cbn [negb]. hys.
  rewrite fits_ok by (rewrite zlen_enc_bstr, LT; lia). rewrite zlen_enc_bstr, LT, Z.eqb_refl by lia. cbn [negb]. hys.
  eapply sat_conseq; [eapply hv_hash_th; exact HV|]. intros [a b] [c' t''] [E1 E2]. injection E1 as -> ->. cbn [w_ctx] in E2.
  hys. zl. hys. apply sat_ret. split; [reflexivity|]. unfold cbor_seq. cbn [flat_map]. rewrite app_nil_r, <- !enc_bstr_rfc.
  clear - E2. openv E2. vfin.
Qed.
Lemma hv_prk_2e : forall w, view (w_ctx w) = V0 -> ts = TH_2 -> ps = PRK_INVALID ->
  sat HU comp_prk_2e w (fun z w' => z = OK /\
    view (w_ctx w') = VW s st m r meth ci ea ts tl th PRK_2E (cs_hash s) (p_extract p th sec) priv publ pub pee sec pci tok).
Proof.
  md. intros [c t] HV HS1 HS2. cbn [w_ctx] in HV. openv HV. unfold comp_prk_2e. hys. zl. hys.
  zl. hys. apply sat_ret. split; [reflexivity|]. vfin.
Qed.

Definition salt_3 : bytes := p_expand p prk (info SALT_3e2m th (cs_hash s)) (cs_hash s).
Definition salt_4 : bytes := p_expand p prk (info SALT_4e3m th (cs_hash s)) (cs_hash s).
Lemma hv_salt_3 : forall w, view (w_ctx w) = V0 -> ts = TH_2 -> ps = PRK_2E -> tl = cs_hash s -> zlen th = tl ->
  sat HU (comp_salt_3e2m (cs_hash s)) w (fun y w' => y = (OK, salt_3) /\ view (w_ctx w') = V0).
Proof.
  md. intros [c t] HV H1 H2 H3 H4. pose proof HV as HV'. cbn [w_ctx] in HV'. openv HV'. unfold comp_salt_3e2m. hys.
  eapply hv_kdf; try exact HV; cbn [w_ctx];
    [intros; apply hv_get_th; exact Vth | intros; apply hv_get_prk; exact Vprk | unfold SALT_3e2m; lia | lia | lia | lia | ].
  unfold info_th_len. rewrite Vtl, H4. reflexivity.
Qed.
Lemma hv_salt_4 : forall w, view (w_ctx w) = V0 -> ts = TH_3 -> ps = PRK_3E2M -> tl = cs_hash s -> zlen th = tl ->
  sat HU (comp_salt_4e3m (cs_hash s)) w (fun y w' => y = (OK, salt_4) /\ view (w_ctx w') = V0).
Proof.
  md. intros [c t] HV H1 H2 H3 H4. pose proof HV as HV'. cbn [w_ctx] in HV'. openv HV'. unfold comp_salt_4e3m. hys.
  eapply hv_kdf; try exact HV; cbn [w_ctx];
    [intros; apply hv_get_th; exact Vth | intros; apply hv_get_prk; exact Vprk | unfold SALT_4e3m; lia | lia | lia | lia | ].
  unfold info_th_len. rewrite Vtl, H4. reflexivity.
Qed.
Lemma hv_agree_eph : forall y w, view (w_ctx w) = V0 ->
  sat HU (agree_eph (p_pub p y) (cs_ecc s)) w (fun z w' => z = (OK, p_dh p priv (p_pub p y)) /\
    view (w_ctx w') = VW s st m r meth ci ea ts tl th ps pl prk [] publ pub pee sec pci tok).
Proof.
  md. intros y [c t] HV. cbn [w_ctx] in HV. openv HV. unfold agree_eph. hys. zl. apply sat_ret. split; [reflexivity|]. vfin.
Qed.
Lemma hv_agree_static : forall y w, view (w_ctx w) = V0 -> pee = p_pub p y ->
  sat HU (agree_static me (cs_ecc s)) w (fun z w' => z = (OK, p_dh p sk pee) /\ view (w_ctx w') = V0).
Proof.
  md. intros y [c t] HV HP. pose proof HV as HV'. cbn [w_ctx] in HV'. openv HV'. unfold agree_static. hys. rewrite HP. hys. zl.
  apply sat_ret. split; [reflexivity|]. rewrite <- HP. exact HV.
Qed.
Lemma hv_prk_static : forall salt_of gxx_of next salt g priv' w,
  (forall w, view (w_ctx w) = V0 -> sat HU (salt_of (cs_hash s)) w (fun y w' => y = (OK, salt) /\ view (w_ctx w') = V0)) ->
  (forall w, view (w_ctx w) = V0 -> sat HU (gxx_of (cs_ecc s)) w (fun y w' => y = (OK, g) /\
     view (w_ctx w') = VW s st m r meth ci ea ts tl th ps pl prk priv' publ pub pee sec pci tok)) ->
  view (w_ctx w) = V0 -> pl = cs_hash s ->
  sat HU (prk_static salt_of gxx_of next) w (fun y w' => y = OK /\
     view (w_ctx w') = VW s st m r meth ci ea ts tl th next pl (p_extract p salt g) priv' publ pub pee sec pci tok).
Proof.
  md. intros salt_of gxx_of next salt g priv' [c t] H1 H2 HV HP. pose proof HV as HV'. cbn [w_ctx] in HV'. openv HV'. unfold prk_static.
  hys. eapply sat_conseq; [apply H1; exact HV|]. intros [a b] [c1 t1] [E1 E2]. injection E1 as -> ->.
  hys. eapply sat_conseq; [apply H2; exact E2|]. intros [a b] [c2 t2] [E1' E2']. injection E1' as -> ->.
  clear - HW SZ MD z_hash z_ext z_exp z_pub z_dh z_enc E2' HP MDz MDh MDe. cbn [w_ctx] in E2'. openv E2'. hys.
  zl. hys. apply sat_ret. split; [reflexivity|]. rewrite HP in *. vfin.
Qed.
End V2.
Section V3.
Variables (st m r meth : Z) (ci : conn_id) (ea : ead_fns) (ts tl : Z) (th : bytes) (ps pl : Z)
  (prk priv : bytes) (publ : Z) (pub pee sec : bytes) (pci : conn_id) (tok : list token).
Local Notation V0 := (VW s st m r meth ci ea ts tl th ps pl prk priv publ pub pee sec pci tok).


Definition prk_3_i (pk_r : bytes) : bytes :=
  if responder_static meth then p_extract p (salt_3 th prk) (p_dh p priv pk_r) else prk.
Definition prk_3_r : bytes :=
  if responder_static meth then p_extract p (salt_3 th prk) (p_dh p sk pee) else prk.
Definition prk_4_i : bytes :=
  if initiator_static meth then p_extract p (salt_4 th prk) (p_dh p sk pee) else prk.
Definition prk_4_r (pk_i : bytes) : bytes :=
  if initiator_static meth then p_extract p (salt_4 th prk) (p_dh p priv pk_i) else prk.
Lemma hv_grx_i : forall cr y w, view (w_ctx w) = V0 -> r = INITIATOR ->
  sat HU (comp_grx cr (p_pub p y) (cs_ecc s)) w (fun z w' => z = (OK, p_dh p priv (p_pub p y)) /\
    view (w_ctx w') = VW s st m r meth ci ea ts tl th ps pl prk [] publ pub pee sec pci tok).
Proof.
  md. intros cr y [c t] HV HR. pose proof HV as HV'. cbn [w_ctx] in HV'. openv HV'. unfold comp_grx. hys.
  eapply hv_agree_eph. exact HV.
Qed.
Lemma hv_grx_r : forall pubk y w, view (w_ctx w) = V0 -> r = RESPONDER -> pee = p_pub p y ->
  sat HU (comp_grx me pubk (cs_ecc s)) w (fun z w' => z = (OK, p_dh p sk pee) /\ view (w_ctx w') = V0).
Proof.
  md. intros pubk y [c t] HV HR HP. pose proof HV as HV'. cbn [w_ctx] in HV'. openv HV'. unfold comp_grx. hys.
  eapply hv_agree_static; eassumption.
Qed.
Lemma hv_giy_i : forall pubk y w, view (w_ctx w) = V0 -> r = INITIATOR -> pee = p_pub p y ->
  sat HU (comp_giy me pubk (cs_ecc s)) w (fun z w' => z = (OK, p_dh p sk pee) /\ view (w_ctx w') = V0).
Proof.
  md. intros pubk y [c t] HV HR HP. pose proof HV as HV'. cbn [w_ctx] in HV'. openv HV'. unfold comp_giy. hys.
  eapply hv_agree_static; eassumption.
Qed.
Lemma hv_giy_r : forall cr y w, view (w_ctx w) = V0 -> r = RESPONDER ->
  sat HU (comp_giy cr (p_pub p y) (cs_ecc s)) w (fun z w' => z = (OK, p_dh p priv (p_pub p y)) /\
    view (w_ctx w') = VW s st m r meth ci ea ts tl th ps pl prk [] publ pub pee sec pci tok).
Proof.
  md. intros cr y [c t] HV HR. pose proof HV as HV'. cbn [w_ctx] in HV'. openv HV'. unfold comp_giy. hys.
  eapply hv_agree_eph. exact HV.
Qed.
Lemma hv_prk_3_i : forall cr pk_r w, view (w_ctx w) = V0 -> ts = TH_2 -> ps = PRK_2E -> tl = cs_hash s -> zlen th = tl ->
  pl = cs_hash s -> r = INITIATOR -> 0 <= meth <= 3 -> (responder_static meth = true -> exists y, pk_r = p_pub p y) ->
  sat HU (comp_prk_3e2m cr pk_r) w (fun z w' => z = OK /\
    view (w_ctx w') = VW s st m r meth ci ea ts tl th PRK_3E2M pl (prk_3_i pk_r)
      (if responder_static meth then [] else priv) publ pub pee sec pci tok).
Proof.
  md. intros cr pk_r [c t] HV H1 H2 H3 H4 H5 H6 H7 H8. pose proof HV as HV'. cbn [w_ctx] in HV'. openv HV'. unfold comp_prk_3e2m, prk_3_i. hys.
  assert (responder_static meth = negb ((meth =? 0) || (meth =? 2))) as HM.
  { unfold responder_static. lia. }
  rewrite HM in *. destruct ((meth =? 0) || (meth =? 2)) eqn:D; cbn [negb] in *.
  - hys. apply sat_ret. split; [reflexivity|]. vfin.
  - hy. destruct H8 as [y ->]; [reflexivity|].
    eapply hv_prk_static; [| |exact HV|assumption].
    + intros. eapply hv_salt_3; eassumption.
    + intros. eapply hv_grx_i; eassumption.
Qed.
Lemma hv_prk_3_r : forall pk_r w, view (w_ctx w) = V0 -> ts = TH_2 -> ps = PRK_2E -> tl = cs_hash s -> zlen th = tl ->
  pl = cs_hash s -> r = RESPONDER -> 0 <= meth <= 3 -> (exists y, pee = p_pub p y) ->
  sat HU (comp_prk_3e2m me pk_r) w (fun z w' => z = OK /\
    view (w_ctx w') = VW s st m r meth ci ea ts tl th PRK_3E2M pl prk_3_r
      priv publ pub pee sec pci tok).
Proof.
  md. intros pk_r [c t] HV H1 H2 H3 H4 H5 H6 H7 H8. pose proof HV as HV'. cbn [w_ctx] in HV'. openv HV'. unfold comp_prk_3e2m, prk_3_r. hys.
  assert (responder_static meth = negb ((meth =? 0) || (meth =? 2))) as HM.
  { unfold responder_static. lia. }
  rewrite HM in *. destruct ((meth =? 0) || (meth =? 2)) eqn:D; cbn [negb] in *.
  - hys. apply sat_ret. split; [reflexivity|]. vfin.
  - hy. destruct H8 as [y HP].
    eapply hv_prk_static; [| |exact HV|assumption].
    + intros. eapply hv_salt_3; eassumption.
    + intros. eapply hv_grx_r; eassumption.
Qed.
Lemma hv_prk_4_i : forall pk_r w, view (w_ctx w) = V0 -> ts = TH_3 -> ps = PRK_3E2M -> tl = cs_hash s -> zlen th = tl ->
  pl = cs_hash s -> r = INITIATOR -> 0 <= meth <= 3 -> (exists y, pee = p_pub p y) ->
  sat HU (comp_prk_4e3m me pk_r) w (fun z w' => z = OK /\
    view (w_ctx w') = VW s st m r meth ci ea ts tl th PRK_4E3M pl prk_4_i
      priv publ pub pee sec pci tok).
Proof.
  md. intros pk_r [c t] HV H1 H2 H3 H4 H5 H6 H7 H8. pose proof HV as HV'. cbn [w_ctx] in HV'. openv HV'. unfold comp_prk_4e3m, prk_4_i. hys.
  assert (initiator_static meth = negb ((meth =? 0) || (meth =? 1))) as HM.
  { unfold initiator_static. lia. }
  rewrite HM in *. destruct ((meth =? 0) || (meth =? 1)) eqn:D; cbn [negb] in *.
  - hys. apply sat_ret. split; [reflexivity|]. vfin.
  - hy. destruct H8 as [y HP].
    eapply hv_prk_static; [| |exact HV|assumption].
    + intros. eapply hv_salt_4; eassumption.
    + intros. eapply hv_giy_i; eassumption.
Qed.
Lemma hv_prk_4_r : forall cr pk_r w, view (w_ctx w) = V0 -> ts = TH_3 -> ps = PRK_3E2M -> tl = cs_hash s -> zlen th = tl ->
  pl = cs_hash s -> r = RESPONDER -> 0 <= meth <= 3 -> (initiator_static meth = true -> exists y, pk_r = p_pub p y) ->
  sat HU (comp_prk_4e3m cr pk_r) w (fun z w' => z = OK /\
    view (w_ctx w') = VW s st m r meth ci ea ts tl th PRK_4E3M pl (prk_4_r pk_r)
      (if initiator_static meth then [] else priv) publ pub pee sec pci tok).
Proof.
  md. intros cr pk_r [c t] HV H1 H2 H3 H4 H5 H6 H7 H8. pose proof HV as HV'. cbn [w_ctx] in HV'. openv HV'. unfold comp_prk_4e3m, prk_4_r. hys.
  assert (initiator_static meth = negb ((meth =? 0) || (meth =? 1))) as HM.
  { unfold initiator_static. lia. }
  rewrite HM in *. destruct ((meth =? 0) || (meth =? 1)) eqn:D; cbn [negb] in *.
  - hys. apply sat_ret. split; [reflexivity|]. vfin.
  - hy. destruct H8 as [y ->]; [reflexivity|].
    eapply hv_prk_static; [| |exact HV|assumption].
    + intros. eapply hv_salt_4; eassumption.
    + intros. eapply hv_giy_r; eassumption.
Qed.
End V3.
End Triples.
