(** Agreement of honest parties. *)
From Verif Require Import Monad Api Common Msg1 Msg2 Msg3 Msg4 Exporter History Spec Rfc Uses
  Conform Wire Facts Logic Sym CborProofs RfcProofs CodecProofs WireProofs Steps Steps2 Steps3 Run2
  Run2p Run1 Run3 Run4 Sessions Fresh RoundTrip Agree.

Lemma take_pre : forall A n (a b : list A), zlen a = n -> take n (a ++ b) = a.
Proof. intros A n a b <-. apply take_self. Qed.
Lemma app_same : forall A (a b c d : list A), zlen a = zlen c -> a ++ b = c ++ d -> a = c /\ b = d.
Proof.
  intros A a b c d H E. assert (X : take (zlen a) (a ++ b) = take (zlen a) (c ++ d)) by now rewrite E.
  rewrite take_self, take_pre in X by now symmetry. subst c. split; [reflexivity|]. now apply app_inv_head in E.
Qed.
Lemma expanded_len : forall t k i n o, 0 <= n -> expanded t k i n o -> zlen o = n.
Proof. intros t k i n o Hn (kid & r & _ & _ & ->). now apply zlen_arr_read. Qed.

(** *** Message 1 *)
Section One.
Variables (EI ER : env) (p : primitives) (sk_i sk_r : bytes -> bytes).
Lemma agree_1 : forall c0 c1 e1 l1 gx m1 d0 d1 f1,
  @composed_1 c0 e1 l1 (priv_of c1) gx (th_of c1) m1 -> typed c0 e1 -> c_tokens c0 = [] -> zlen m1 < 2 ^ 32 ->
  let d := snd (fst (dec_message_1 (@cf_canon ER) m1)) in
  @processed_1 d0 f1 d (peer_of d1) (th_of d1) m1 ->
  obeys p sk_i e1 -> obeys p sk_r f1 -> 0 <= c_csuite_len c0 ->
  (cs_value (my_suite c0) = cs_value (my_suite d0) -> my_suite c0 = my_suite d0) ->
  my_suite d0 = my_suite c0 /\ m1_method d = my_method c0 /\ m1_suites d = suite_values c0 /\
  m1_cid d = cid_rfc (c_cid c0) /\ peer_of d1 = gx /\ th_of d1 = th_of c1 /\ gx = p_pub p (priv_of c1) /\
  map ead_of (m1_ead d) = map ead1_of l1 /\ Forall token_in (m1_ead d) /\ (m1_ead_present d = true <-> l1 <> []).
Proof.
  intros c0 c1 e1 l1 gx m1 d0 d1 f1 HC HT HK HM d HP OI OR HL HS.
  destruct (message_1_read _ _ _ _ _ _ _ HC HT HK HM (@cf_canon ER)) as (d' & D & D1 & D2 & D3 & (r & D4) & D5 & D6 & D7 & D8).
  assert (d = d') by (unfold d; now rewrite D). clearbody d. subst d'. clear D.
  destruct HC as (A1 & A2 & A3 & A4 & A5 & A6 & A7 & A8 & A9 & A10).
  destruct HP as (B1 & B2 & B3 & B4 & B5 & B6 & B7 & B8 & B9 & B10 & B11 & B12 & B13).
  assert (ES : my_suite c0 = my_suite d0).
  { apply HS. unfold my_suite. change (nth ?n ?l csuite0) with (nth n l csuite0).
    fold (csuite_at c0 (c_csuite_len c0 - 1)) (csuite_at d0 (c_csuite_len d0 - 1)). rewrite <- B4, D2. symmetry. apply last_suite. lia. }
  change (csuite_at c0 (c_csuite_len c0 - 1)) with (my_suite c0) in *. change (csuite_at d0 (c_csuite_len d0 - 1)) with (my_suite d0) in *.
  rewrite <- ES in *. split; [reflexivity|]. do 3 (split; [assumption|]). split; [|split; [|split; [|split; [|split]]]]; try assumption.
  - pose proof (zlen_nonneg _ gx). destruct (Z.eq_dec (zlen gx) 0) as [Z|Z].
    + rewrite (zlen_0 _ _ Z). apply zlen_0. lia.
    + destruct B7 as (r' & R1 & R2' & ->); [lia|]. rewrite D4 in R1. injection R1 as <-. now apply take_pre.
  - now rewrite (proj1 (ob_hash _ _ _ _ _ _ OI A4)), (proj1 (ob_hash _ _ _ _ _ _ OR B11)).
  - exact (ob_made _ _ _ _ _ OI A1).
Qed.
End One.

(** *** Message 2: responder state [d1], [d2] with run [y], initiator state [c1], [c2] with run [x]. *)
Section Two.
Variables (EI ER : env) (p : primitives) (sk_i sk_r : bytes -> bytes).
Hypothesis CP : correct p.
Lemma agree_2 : forall c1 e2 x d pc cr0 pub m2 d1 f2 y priv sig,
  @processed_2 EI c1 e2 x d pc cr0 pub m2 -> @composed_2 ER d1 f2 y priv sig m2 ->
  obeys p sk_i e2 -> obeys p sk_r f2 -> apart f2 -> zlen m2 < 2 ^ 32 ->
  honest_credential p sk_r (responder_static (c_chosen_method c1)) f2 e2 ->
  the_suite d1 = the_suite c1 -> c_chosen_method d1 = c_chosen_method c1 -> th_of d1 = th_of c1 ->
  peer_of d1 = p_pub p (priv_of c1) -> sizes_ok (the_suite c1) ->
  r2_gy y = r2_gy x /\ r2_gxy y = r2_gxy x /\ r2_th2 y = r2_th2 x /\ r2_prk2e y = r2_prk2e x /\ r2_prk3 y = r2_prk3 x /\
  r2_ptxt y = r2_ptxt x /\ r2_ks y = r2_ks x /\ r2_th3 y = r2_th3 x /\ cred_bytes_of (r2_cred y) = cred_bytes_of (r2_cred x) /\
  r2_gy y = p_pub p priv /\ zlen (r2_th3 x) = cs_hash (the_suite c1).
Proof.
  intros c1 e2 x d pc cr0 pub m2 d1 f2 y priv sig
    ((S1 & S2 & S3 & S4 & S5 & S6) & X1 & (ct & X2 & X3 & X4) & X5 & X6 & X7 & X8 & X9 & X10 & X11 & X12 & X13 & X14 & X15)
    ((T1 & T2 & T3 & T4 & T5 & T6) & Y1 & Y2 & Y3 & Y4 & Y5 & Y6 & Y7 & Y8 & Y9 & Y10) OI OR AP HM HC ES EM ET EP SZ.
  rewrite ES, EM, ET, EP in *. destruct CP as [CD _].
  assert (G : r2_gy x = r2_gy y /\ ct = xor_bytes (r2_ptxt y) (r2_ks y)).
  { apply app_same; [congruence|]. rewrite Y7, one_bstr_rt in X2; [now injection X2|].
    pose proof (bstr_le (r2_gy y ++ xor_bytes (r2_ptxt y) (r2_ks y))). rewrite <- Y7 in *. lia. }
  destruct G as [G1 G2]. rewrite G1 in *.
  assert (PB : r2_gy y = p_pub p priv) by exact (ob_made _ _ _ _ _ OR Y1).
  assert (EX : r2_gxy y = r2_gxy x).
  { rewrite (ob_agreed _ _ _ _ _ _ OI X1), (ob_agreed _ _ _ _ _ _ OR Y2), PB. apply CD. }
  assert (E2 : r2_th2 y = r2_th2 x) by now rewrite (proj1 (ob_hash _ _ _ _ _ _ OI S1)), (proj1 (ob_hash _ _ _ _ _ _ OR T1)).
  rewrite E2, EX in *.
  assert (Ee : r2_prk2e y = r2_prk2e x) by now rewrite (ob_extract _ _ _ _ _ _ OI S2), (ob_extract _ _ _ _ _ _ OR T2).
  rewrite Ee in *.
  destruct (HC _ _ _ _ Y3 X9) as [HC1 HC2].
  assert (E3 : r2_prk3 y = r2_prk3 x).
  { set (g := p_dh p (sk_r (cr_priv (r2_cred y))) (p_pub p (priv_of c1))).
    rewrite (ob_next p sk_i _ _ _ _ _ _ _ _ g OI S3), (ob_next p sk_r _ _ _ _ _ _ _ _ g OR T3); [reflexivity| |].
    - intros _ g' Hg. exact (ob_agreed_lt _ _ _ _ _ _ OR AP Y3 Hg).
    - intros st g' Hg. rewrite (ob_agreed _ _ _ _ _ _ OI Hg), (HC2 st). apply CD. }
  assert (LP : zlen (r2_ptxt y) = zlen (r2_ptxt x)) by now rewrite X3, zlen_xor, G2, zlen_xor.
  rewrite LP in *.
  assert (EK : r2_ks y = r2_ks x) by now rewrite (ob_expand _ _ _ _ _ _ _ OI S5), (ob_expand _ _ _ _ _ _ _ OR T5).
  assert (PT : r2_ptxt y = r2_ptxt x).
  { rewrite X3, G2, EK. symmetry. apply xor_twice. rewrite LP. exact (expanded_len _ _ _ _ _ (zlen_nonneg _ _) S5). }
  rewrite PT, <- HC1 in *.
  assert (E4 : r2_th3 y = r2_th3 x) by now rewrite (proj1 (ob_hash _ _ _ _ _ _ OI S6)), (proj1 (ob_hash _ _ _ _ _ _ OR T6)).
  repeat split; try assumption; try reflexivity. exact (proj2 (ob_hash _ _ _ _ _ _ OI S6)).
Qed.
(** *** Message 3: initiator state [c2] with run [x], responder state [d2] with run [y]. *)
Lemma agree_3 : forall c2 e3 x sig ct m3 d2 f3 y d cr0 pub ct',
  @composed_3 EI c2 e3 x sig ct m3 -> @processed_3 ER d2 f3 y d cr0 pub ct' m3 ->
  obeys p sk_i e3 -> obeys p sk_r f3 -> apart e3 -> zlen m3 < 2 ^ 32 ->
  honest_credential p sk_i (initiator_static (c_chosen_method c2)) e3 f3 ->
  the_suite d2 = the_suite c2 -> c_chosen_method d2 = c_chosen_method c2 -> th_of d2 = th_of c2 -> prk_of d2 = prk_of c2 ->
  peer_of c2 = p_pub p (priv_of d2) ->
  ct' = ct /\ r3_key y = r3_key x /\ r3_iv y = r3_iv x /\ r3_prk4 y = r3_prk4 x /\ r3_ptxt y = r3_ptxt x /\
  r3_th4 y = r3_th4 x /\ cred_bytes_of (r3_cred y) = cred_bytes_of (r3_cred x).
Proof.
  intros c2 e3 x sig ct m3 d2 f3 y d cr0 pub ct'
    ((S1 & S2 & S3 & S4 & S5) & X1 & X2 & X3 & X4 & X5 & X6 & X7 & X8)
    ((T1 & T2 & T3 & T4 & T5) & Y1 & Y2 & Y3 & Y4 & Y5 & Y6 & Y7 & Y8 & Y9 & Y10 & Y11) OI OR AP HM HC ES EM ET EP PP.
  rewrite ES, EM, ET, EP in *. destruct CP as [CD CE].
  assert (G : ct' = ct).
  { rewrite X6, one_bstr_rt in Y1; [now injection Y1|]. pose proof (bstr_le ct). rewrite <- X6 in *. lia. }
  subst ct'. destruct (HC _ _ _ _ X1 Y6) as [HC1 HC2].
  assert (EK : r3_key y = r3_key x) by now rewrite (ob_expand _ _ _ _ _ _ _ OI S1), (ob_expand _ _ _ _ _ _ _ OR T1).
  assert (EI' : r3_iv y = r3_iv x) by now rewrite (ob_expand _ _ _ _ _ _ _ OI S2), (ob_expand _ _ _ _ _ _ _ OR T2).
  assert (E4 : r3_prk4 y = r3_prk4 x).
  { set (g := p_dh p (sk_i (cr_priv (r3_cred x))) (p_pub p (priv_of d2))).
    rewrite (ob_next p sk_i _ _ _ _ _ _ _ _ g OI S3), (ob_next p sk_r _ _ _ _ _ _ _ _ g OR T3); [reflexivity| |].
    - intros st g' Hg. rewrite (ob_agreed _ _ _ _ _ _ OR Hg), (HC2 st). apply CD.
    - intros _ g' Hg. unfold g. rewrite <- PP. exact (ob_agreed_lt _ _ _ _ _ _ OI AP X1 Hg). }
  assert (PT : r3_ptxt y = r3_ptxt x).
  { pose proof (ob_dec _ _ _ _ _ _ _ _ OR Y2) as D. rewrite (ob_enc _ _ _ _ _ _ _ _ OI X5), EK, EI', CE in D. now injection D. }
  rewrite PT, <- HC1 in *.
  assert (ET4 : r3_th4 y = r3_th4 x) by now rewrite (proj1 (ob_hash _ _ _ _ _ _ OI S5)), (proj1 (ob_hash _ _ _ _ _ _ OR T5)).
  repeat split; try assumption; congruence.
Qed.
End Two.

(** ** The whole exchange *)
Definition same_run (x y : run2) (u v : run3) : Prop :=
  r2_gy y = r2_gy x /\ r2_gxy y = r2_gxy x /\ r2_th2 y = r2_th2 x /\ r2_prk2e y = r2_prk2e x /\ r2_prk3 y = r2_prk3 x /\
  r2_ptxt y = r2_ptxt x /\ r2_ks y = r2_ks x /\ r2_th3 y = r2_th3 x /\ cred_bytes_of (r2_cred y) = cred_bytes_of (r2_cred x) /\
  r3_key v = r3_key u /\ r3_iv v = r3_iv u /\ r3_prk4 v = r3_prk4 u /\ r3_ptxt v = r3_ptxt u /\
  r3_th4 v = r3_th4 u /\ cred_bytes_of (r3_cred v) = cred_bytes_of (r3_cred u).
Lemma agree : forall EI ER p sk_i sk_r a b m1 m2 m3, exchange EI ER p sk_i sk_r a b m1 m2 m3 ->
  exists l1 gx x2 d cr0 pub x3 sig ct y2 sigr y3 dr crr pubr,
    @i_facts EI a m1 m2 m3 l1 gx x2 d cr0 pub x3 sig ct /\ @r_facts ER b m1 m2 m3 y2 sigr y3 dr crr pubr ct /\
    my_suite (s0 b) = my_suite (s0 a) /\ the_suite (s1 a) = my_suite (s0 a) /\ the_suite (s1 b) = my_suite (s0 a) /\ 
    c_chosen_method (s1 b) = my_method (s0 a) /\ c_chosen_method (s1 a) = my_method (s0 a) /\
    cid_rfc (c_peer_cid (s1 b)) = cid_rfc (c_cid (s0 a)) /\
    (let d1 := snd (fst (dec_message_1 (@cf_canon ER) m1)) in
     m1_suites d1 = suite_values (s0 a) /\ map ead_of (m1_ead d1) = map ead1_of l1 /\ Forall token_in (m1_ead d1) /\ (m1_ead_present d1 = true <-> l1 <> [])) /\
    peer_of (s1 b) = gx /\ th_of (s1 b) = th_of (s1 a) /\
    th_of (s2 a) = r2_th3 x2 /\ th_of (s2 b) = r2_th3 x2 /\ prk_of (s2 b) = prk_of (s2 a) /\
    same_run x2 y2 x3 y3.
Proof.
  intros EI ER p sk_i sk_r a b m1 m2 m3
    (FA & FB & IA & IB & [_ M1] & M2 & [_ M3] & CP & (OA1 & OA2 & OA3) & (OB1 & OB2 & OB3) & AP3 & AP2 & HR & HI & SA & SB & TY & SS).
  apply configured_fresh in FA as (FA1 & _ & _ & _ & _ & _ & _ & _ & FA2 & _).
  destruct (initiator_facts _ _ _ _ IA SA M2) as (l1 & gx & x2 & d & cr0 & pub & x3 & sig & ct & I).
  destruct (responder_facts _ _ _ _ IB SB (proj2 M2)) as (y2 & sigr & y3 & dr & crr & pubr & ct' & R).
  exists l1, gx, x2, d, cr0, pub, x3, sig, ct, y2, sigr, y3, dr, crr, pubr.
  pose proof I as (I1 & I2 & I3 & I4 & I5 & I6 & I7 & I8 & I9 & I10 & I11 & I12).
  pose proof R as (R1 & R2' & R3' & R4 & R5 & R6 & R7 & R8 & R9 & R10 & R11 & R12 & R13 & R14 & R15).
  destruct (agree_1 ER p sk_i sk_r _ _ _ _ _ _ _ _ _ I1 TY FA1 M1 R1 OA1 OB1 (proj1 FA2) SS) as (E1 & E2 & E3 & E4 & E5 & E6 & E7 & E8 & E9 & E10).
  rewrite E2 in R4. rewrite E4 in R5. change (nth 0 (c_methods (s0 a)) 0) with (my_method (s0 a)) in I4.
  assert (SU1 : the_suite (s1 a) = my_suite (s0 a)) by apply I2.
  assert (SU2 : the_suite (s1 b) = my_suite (s0 a)) by (rewrite <- E1; apply R2').
  assert (P5 : peer_of (s1 b) = p_pub p (priv_of (s1 a))) by now rewrite E5.
  destruct (agree_2 EI ER p sk_i sk_r CP _ _ _ _ _ _ _ _ _ _ _ _ _ I5 R9 OA2 OB2 AP2 (proj2 M2)) as
    (G1 & G2 & G3 & G4 & G5 & G6 & G7 & G8 & G9 & G10 & G11); [rewrite I4; exact HR|congruence|congruence|assumption|assumption|rewrite SU1; exact SA|].
  pose proof I6 as ((K1 & K2 & K3 & K4 & K5) & K6 & K7 & K8 & K9 & K10).
  pose proof R10 as ((L1 & L2 & L3 & L4 & L5) & L6 & L7 & L8 & L9 & L10).
  assert (TA : th_of (s2 a) = r2_th3 x2) by now apply K9.
  assert (TB : th_of (s2 b) = r2_th3 x2) by (rewrite <- G8; apply L9; rewrite G8; congruence).
  assert (PE : prk_of (s2 b) = prk_of (s2 a)) by congruence.
  destruct (agree_3 EI ER p sk_i sk_r CP _ _ _ _ _ _ _ _ _ _ _ _ _ I9 R12 OA3 OB3 AP3 M3) as
    (H0 & H1 & H2 & H3 & H4 & H5 & H6); [rewrite K2, I4; exact HI|congruence|congruence|congruence|assumption|congruence|].
  subst ct'. do 2 (split; [assumption|]). do 5 (split; [congruence|]). split; [congruence|]. split; [repeat split; try assumption; apply E10|].
  do 5 (split; [congruence|]). unfold same_run. repeat (split; [assumption|]). assumption.
Qed.
