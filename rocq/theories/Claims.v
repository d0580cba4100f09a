(** Lemmas behind the property theorems on honest peers.  No code of /repo is modelled here. *)
From Verif Require Import Monad Api Common Msg1 Msg2 Msg3 Msg4 Exporter History Spec Rfc Uses
  Conform Wire Facts Logic Sym CborProofs RfcProofs CodecProofs WireProofs Steps Steps2 Steps3 Run2
  Run2p Run1 Run3 Run4 Sessions Fresh RoundTrip Agree Honest Live Peers.

Lemma suite_values_take : forall c, 0 <= c_csuite_len c <= zlen (c_csuites c) ->
  suite_values c = map cs_value (take (c_csuite_len c) (c_csuites c)).
Proof.
  intros c H. unfold suite_values, take. assert (L : (Z.to_nat (c_csuite_len c) <= length (c_csuites c))%nat) by (unfold zlen in H; lia).
  revert L. generalize (Z.to_nat (c_csuite_len c)) as n. generalize (c_csuites c) as l. clear. intros l n. revert l.
  induction n as [|n IH]; intros l L; [reflexivity|]. destruct l as [|x l]; [cbn in L; lia|]. cbn [length] in L. cbn [seq map firstn nth].
  f_equal. rewrite <- seq_shift, map_map. apply IH. lia.
Qed.

(** C09 *)
Lemma message_1_arrives : forall EI ER p sk_i sk_r a0 a1 e nn n t b0 b1 f nn' t' m1,
  @configured EI a0 -> @configured ER b0 ->
  @message_1_compose EI nn n (Wd a0 t) = Ret (OK, m1) (Wd a1 (e ++ t)) ->
  @message_1_process ER nn' m1 (Wd b0 t') = Ret OK (Wd b1 (f ++ t')) ->
  is_message m1 -> typed a0 e -> obeys p sk_i e -> obeys p sk_r f -> 0 <= cs_ecc (my_suite b0) ->
  (cs_value (my_suite a0) = cs_value (my_suite b0) -> my_suite a0 = my_suite b0) ->
  c_chosen_method b1 = my_method a0 /\
  take (c_peer_csuite_len b1) (c_peer_csuites b1) = map cs_value (take (c_csuite_len a0) (c_csuites a0)) /\
  made e (priv_of a1) (peer_of b1) /\
  cid_rfc (c_peer_cid b1) = cid_rfc (c_cid a0) /\
  th_of b1 = th_of a1 /\ hashed e m1 (cs_hash (my_suite a0)) (th_of a1).
Proof.
  intros EI ER p sk_i sk_r a0 a1 e nn n t b0 b1 f nn' t' m1 CA CB H1 H2 [_ HM] TY OI OR HE HS.
  apply configured_fresh in CA as (FA1 & _ & _ & _ & _ & _ & _ & _ & FA2 & _). apply configured_fresh in CB as (_ & FB & _).
  pose proof (sat_run _ _ _ _ _ _ _ (@run_compose_1 EI nn n a0 t) H1 eq_refl) as R1.
  destruct R1 as (te & l1 & priv & gx & th & T1 & A1 & A2 & _ & _ & A5 & A6 & _). cs in T1. apply app_inv_tail in T1. subst te.
  cs in A1. cs in A5. cs in A6. subst th priv.
  pose proof (sat_run _ _ _ _ _ _ _ (@run_process_1 ER nn' m1 b0 t' HE) H2 eq_refl) as R2'.
  destruct R2' as (tf & gx' & th' & T2 & B1 & _ & _ & B3 & B4 & B5 & _ & _ & B6 & _ & B7 & B8). cs in T2. apply app_inv_tail in T2. subst tf.
  cs in B1. cs in B3. cs in B4. cs in B5. cs in B6. cs in B7. cs in B8. subst gx' th'.
  destruct (agree_1 ER p sk_i sk_r _ _ _ _ _ _ _ _ _ A1 TY FA1 HM B1 OI OR (proj1 FA2) HS) as (E1 & E2 & E3 & E4 & E5 & E6 & E7 & E8 & E9 & E10).
  split; [congruence|]. split; [rewrite B7, (B8 FB), E3; now apply suite_values_take|]. split; [rewrite E5; apply A1|].
  split; [congruence|]. split; [exact E6|]. apply A1.
Qed.

(** C14 *)
Lemma keystream_2 : forall EI ER p sk_i sk_r a b m1 m2 m3, exchange EI ER p sk_i sk_r a b m1 m2 m3 ->
  exists g_y ptxt ks prk2e th2 h cred cred' th3 th3',
    m2 = cbor (Bstr (g_y ++ xor_bytes ptxt ks)) /\
    expanded (ev2 b) prk2e (info KEYSTREAM_2 th2 (zlen ptxt)) (zlen ptxt) ks /\
    hashed (ev2 b) (cbor (Bstr th2) ++ ptxt ++ cred) h th3 /\
    expanded (ev2 a) prk2e (info KEYSTREAM_2 th2 (zlen ptxt)) (zlen ptxt) ks /\
    hashed (ev2 a) (cbor (Bstr th2) ++ ptxt ++ cred') h th3'.
Proof.
  intros EI ER p sk_i sk_r a b m1 m2 m3 X.
  destruct (agree _ _ _ _ _ _ _ _ _ _ X) as (l1 & gx & x2 & d & cr0 & pub & x3 & sig & ct & y2 & sigr & y3 & dr & crr & pubr & I & R &
    _ & S1 & S2 & _ & _ & _ & _ & _ & _ & _ & _ & _ & SR).
  destruct I as (_ & _ & _ & _ & ((_ & _ & _ & _ & XK & XT) & _) & _).
  destruct R as (_ & _ & _ & _ & _ & _ & _ & _ & ((_ & _ & _ & _ & YK & YT) & _ & _ & _ & _ & _ & _ & MS & _) & _).
  destruct SR as (_ & _ & T2 & P2 & _ & PT & KS & _).
  exists (r2_gy y2), (r2_ptxt y2), (r2_ks y2), (r2_prk2e y2), (r2_th2 y2), (cs_hash (my_suite (s0 a))),
    (cred_bytes_of (r2_cred y2)), (cred_bytes_of (r2_cred x2)), (r2_th3 y2), (r2_th3 x2).
  split; [exact MS|]. split; [exact YK|]. rewrite S2 in YT. split; [exact YT|]. rewrite PT, KS, P2, T2. split; [exact XK|]. now rewrite S1 in XT.
Qed.

(** C17, C25 *)
Lemma same_secrets : forall EI ER p sk_i sk_r a b m1 m2 m3, exchange EI ER p sk_i sk_r a b m1 m2 m3 ->
  c_status (s3 a) = SM_COMPLETED /\ c_status (s3 b) = SM_COMPLETED /\
  c_th_state (s3 a) = TH_4 /\ c_th_state (s3 b) = TH_4 /\ th_of (s3 a) = th_of (s3 b) /\
  c_prk_state (s3 a) = PRK_4E3M /\ c_prk_state (s3 b) = PRK_4E3M /\ prk_of (s3 a) = prk_of (s3 b).
Proof.
  intros EI ER p sk_i sk_r a b m1 m2 m3 X.
  destruct (peers_state _ _ _ _ _ _ _ _ _ _ X) as (th4 & prk4 & A1 & A2 & A3 & A4 & A5 & A6 & A7 & A8 & A9 & A10 & _).
  repeat split; congruence.
Qed.
Lemma same_exports : forall EI ER p sk_i sk_r a b m1 m2 m3, exchange EI ER p sk_i sk_r a b m1 m2 m3 ->
  forall ra ea ra1 x ra2 rb eb rb1 y rb2 label n sa sb sk sk',
  @later EI (s3 a) ra ea -> obeys p sk ea -> expands_ok ea -> ra = ra1 ++ x :: ra2 ->
  @later ER (s3 b) rb eb -> obeys p sk' eb -> expands_ok eb -> rb = rb1 ++ y :: rb2 ->
  entropies ra1 = entropies rb1 -> 0 <= n < 2 ^ 32 ->
  export_of x label n sa -> export_of y label n sb -> sa = sb.
Proof.
  intros EI ER p sk_i sk_r a b m1 m2 m3 X ra ea ra1 x ra2 rb eb rb1 y rb2 label n sa sb sk sk' LA OA XA EA LB OB XB EB EN HN PA PB.
  rewrite (peers_export _ _ _ _ _ _ _ _ _ _ X _ _ _ _ _ _ _ _ (or_introl LA) (ex_intro (fun k => obeys p k _) _ OA) XA EA PA HN).
  rewrite (peers_export _ _ _ _ _ _ _ _ _ _ X _ _ _ _ _ _ _ _ (or_intror LB) (ex_intro (fun k => obeys p k _) _ OB) XB EB PB HN).
  unfold prk_out_after. now rewrite EN.
Qed.
Lemma update_formula : forall EI ER p sk_i sk_r a b m1 m2 m3, exchange EI ER p sk_i sk_r a b m1 m2 m3 ->
  forall rs e rs1 r rs2 label n sec sk, let h := cs_hash (my_suite (s0 a)) in
  @later EI (s3 a) rs e \/ @later ER (s3 b) rs e -> obeys p sk e -> expands_ok e -> rs = rs1 ++ r :: rs2 ->
  export_of r label n sec -> 0 <= n < 2 ^ 32 ->
  sec = exporter p h (fold_left (fun po en => p_expand p po (info NEW_PRK_out en h) h) (entropies rs1)
                        (p_expand p (prk_of (s3 a)) (info PRK_out (th_of (s3 a)) h) h)) label n.
Proof.
  intros EI ER p sk_i sk_r a b m1 m2 m3 X rs e rs1 r rs2 label n sec sk h LA OA XA EA PA HN.
  exact (peers_export _ _ _ _ _ _ _ _ _ _ X _ _ _ _ _ _ _ _ LA (ex_intro (fun k => obeys p k _) _ OA) XA EA PA HN).
Qed.
(** C18 *)
Lemma oscore_mirror : forall EI ER p sk_i sk_r a b m1 m2 m3, exchange EI ER p sk_i sk_r a b m1 m2 m3 ->
  forall ra ea ra1 x ra2 rb eb rb1 y rb2 n1 n2 sa ta ia ja sb tb ib jb sk sk',
  @later EI (s3 a) ra ea -> obeys p sk ea -> expands_ok ea -> ra = ra1 ++ x :: ra2 ->
  @later ER (s3 b) rb eb -> obeys p sk' eb -> expands_ok eb -> rb = rb1 ++ y :: rb2 ->
  entropies ra1 = entropies rb1 -> 0 <= n1 < 2 ^ 32 -> 0 <= n2 < 2 ^ 32 ->
  oscore_of x n1 n2 sa ta ia ja -> oscore_of y n1 n2 sb tb ib jb ->
  sa = sb /\ ta = tb /\ ia = jb /\ ja = ib.
Proof.
  intros EI ER p sk_i sk_r a b m1 m2 m3 X ra ea ra1 x ra2 rb eb rb1 y rb2 n1 n2 sa ta ia ja sb tb ib jb sk sk' LA OA XA EA LB OB XB EB EN H1 H2 PA PB.
  exact (peers_oscore _ _ _ _ _ _ _ _ _ _ X _ _ _ _ _ _ _ _ _ _ _ _ _ _ _ _ _ _ _ _ LA LB (ex_intro (fun k => obeys p k _) _ OA) XA (ex_intro (fun k => obeys p k _) _ OB) XB EA EB EN PA PB H1 H2).
Qed.
Lemma oscore_formula : forall EI ER p sk_i sk_r a b m1 m2 m3, exchange EI ER p sk_i sk_r a b m1 m2 m3 ->
  forall rs e rs1 r rs2 n1 n2 sec salt sid rid sk, let h := cs_hash (my_suite (s0 a)) in
  let po := prk_out_after p h (prk_out p h (th_of (s3 a)) (prk_of (s3 a))) rs1 in
  let c_i := oscore_bytes (cid_rfc (c_cid (s0 a))) in let c_r := oscore_bytes (cid_rfc (c_cid (s0 b))) in
  obeys p sk e -> expands_ok e -> rs = rs1 ++ r :: rs2 ->
  oscore_of r n1 n2 sec salt sid rid -> 0 <= n1 < 2 ^ 32 -> 0 <= n2 < 2 ^ 32 ->
  (@later EI (s3 a) rs e \/ @later ER (s3 b) rs e -> sec = exporter p h po 0 n1 /\ salt = exporter p h po 1 n2) /\
  (@later EI (s3 a) rs e -> sid = c_r /\ rid = c_i) /\
  (@later ER (s3 b) rs e -> sid = c_i /\ rid = c_r).
Proof.
  intros EI ER p sk_i sk_r a b m1 m2 m3 X rs e rs1 r rs2 n1 n2 sec salt sid rid sk h po c_i c_r O XO Er OX H1 H2.
  destruct (peers_alive _ _ _ _ _ _ _ _ _ _ X) as (A1 & A2 & A3 & A4). destruct (peers_cids _ _ _ _ _ _ _ _ _ _ X) as (C1 & C2 & C3 & C4).
  assert (I : @later EI (s3 a) rs e -> sec = exporter p h po 0 n1 /\ salt = exporter p h po 1 n2 /\ sid = c_r /\ rid = c_i).
  { intro L. destruct (later_hands _ _ _ _ _ _ _ _ _ _ X _ _ _ _ _ L O XO A1 A3 _ _ _ Er) as [_ H].
    destruct (H _ _ _ _ _ _ OX H1 H2) as (-> & -> & -> & ->). subst c_i c_r. rewrite C1, C3, C4. repeat split. }
  assert (R : @later ER (s3 b) rs e -> sec = exporter p h po 0 n1 /\ salt = exporter p h po 1 n2 /\ sid = c_i /\ rid = c_r).
  { intro L. destruct (later_hands _ _ _ _ _ _ _ _ _ _ X _ _ _ _ _ L O XO A2 A4 _ _ _ Er) as [_ H].
    destruct (H _ _ _ _ _ _ OX H1 H2) as (-> & -> & -> & ->). subst c_i c_r. rewrite C2, C3, C4. repeat split. }
  tauto.
Qed.
