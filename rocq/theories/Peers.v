(** Consequences of agreement for the sessions of two honest parties. *)
From Verif Require Import Monad Api Common Msg1 Msg2 Msg3 Msg4 Exporter History Spec Rfc Uses
  Conform Wire Facts Logic Sym CborProofs RfcProofs CodecProofs WireProofs Steps Steps2 Steps3 Run2
  Run2p Run1 Run3 Run4 Sessions Fresh RoundTrip Agree Honest Live.

Lemma cid_fits : forall (EE : env) c n, @fresh EE c -> zlen (cbor (cid_item (cid_rfc (c_cid c)))) <= n -> n < 2 ^ 64 -> cid_ok (cid_rfc (c_cid c)).
Proof.
  intros EE c n (_ & _ & _ & _ & _ & _ & _ & _ & _ & F) H Hn. unfold cid_rfc in *. destruct (cid_type (c_cid c) =? CID_INT) eqn:T.
  - cbn [cid_ok]. destruct F as [[_ F]|[F _]]; [exact F|]. rewrite F in T. discriminate.
  - cbn [cid_ok]. cbn [cid_item] in H. pose proof (bstr_le (cid_bstr (c_cid c))). lia.
Qed.
Lemma peer_cid_read : forall canon ci r d, cid_ok ci -> dec_plaintext_2 canon (cbor (cid_item ci) ++ r) = Some d -> cid_read (pt_cid d) = ci.
Proof.
  intros canon ci r d H X. unfold dec_plaintext_2 in X. rewrite cid_dec in X by (assumption || lia).
  destruct (dec_idv _ _) as [[i s2]|]; [|discriminate]. destruct (dec_bstr _ _) as [[sg s3]|]; [|discriminate].
  destruct (dec_ead _ _) as [[ok l] ?]. injection X as <-. now destruct ci.
Qed.
Section Peers.
Variables (EI ER : env) (p : primitives) (sk_i sk_r : bytes -> bytes) (a b : trip) (m1 m2 m3 : bytes).
Hypothesis X : exchange EI ER p sk_i sk_r a b m1 m2 m3.
Notation s := (my_suite (s0 a)).
Lemma peers_sizes : 0 <= cs_hash s < 2 ^ 32.
Proof. destruct X as (_ & _ & _ & _ & _ & _ & _ & _ & _ & _ & _ & _ & _ & _ & S & _). apply S. Qed.
(** TH_4 and PRK_4e3m, and the invariant of both sessions. *)
Lemma peers_state : exists th4 prk4,
  th_of (s3 a) = th4 /\ th_of (s3 b) = th4 /\ prk_of (s3 a) = prk4 /\ prk_of (s3 b) = prk4 /\
  c_th_state (s3 a) = TH_4 /\ c_th_state (s3 b) = TH_4 /\ c_prk_state (s3 a) = PRK_4E3M /\ c_prk_state (s3 b) = PRK_4E3M /\
  c_status (s3 a) = SM_COMPLETED /\ c_status (s3 b) = SM_COMPLETED /\
  the_suite (s3 a) = s /\ the_suite (s3 b) = s /\ c_prk_len (s3 a) = cs_hash s /\ c_prk_len (s3 b) = cs_hash s /\
  zlen th4 = cs_hash s.
Proof.
  destruct (agree _ _ _ _ _ _ _ _ _ _ X) as (l1 & gx & x2 & d & cr0 & pub & x3 & sig & ct & y2 & sigr & y3 & dr & crr & pubr & I & R &
    _ & S1 & S2 & _ & _ & _ & _ & _ & _ & _ & _ & _ & SR).
  destruct I as (_ & _ & _ & _ & _ & I6 & _ & _ & _ & I10 & _). destruct R as (_ & _ & _ & _ & _ & _ & _ & _ & _ & R10 & _ & _ & R13 & _).
  destruct I6 as ((K1 & _) & _ & _ & _ & _ & K6). destruct R10 as ((L1 & _) & _ & _ & _ & _ & L6).
  destruct I10 as ((A1 & _) & A2 & A3 & A4 & A5 & A6 & A7 & A8 & A9 & A10 & A11 & A12).
  destruct R13 as ((B1 & _) & B2 & B3 & B4 & B5 & B6 & B7 & B8 & B9 & B10 & B11 & B12).
  destruct SR as (_ & _ & _ & _ & _ & _ & _ & _ & _ & _ & _ & P4 & _ & T4 & _).
  exists (r3_th4 x3), (r3_prk4 x3).
  repeat (split; [first [assumption | congruence]|]). split; [|split; [|congruence]].
  - rewrite A12. destruct (initiator_static (c_chosen_method (s2 a))); congruence.
  - rewrite B12. destruct (initiator_static (c_chosen_method (s2 b))); congruence.
Qed.
Lemma peers_alive : let po := prk_out p (cs_hash s) (th_of (s3 a)) (prk_of (s3 a)) in
  alive p s (th_of (s3 a)) (prk_of (s3 a)) po (s3 a) /\ alive p s (th_of (s3 a)) (prk_of (s3 a)) po (s3 b) /\ over (s3 a) /\ over (s3 b).
Proof.
  destruct peers_state as (th4 & prk4 & A1 & A2 & A3 & A4 & A5 & A6 & A7 & A8 & A9 & A10 & A11 & A12 & A13 & A14 & _).
  cbv zeta. rewrite A1, A3. unfold alive, over. rewrite A9, A10. repeat split; try assumption; try (left; repeat split; assumption); right; discriminate.
Qed.
Lemma obeys_sound : forall sk e, obeys p sk e -> expands_ok e -> sound p e.
Proof. intros sk e (F & _ & _ & K & _) XO. split; [exact F|]. split; [exact XO|exact K]. Qed.
Notation po0 := (prk_out p (cs_hash s) (th_of (s3 a)) (prk_of (s3 a))).
Lemma later_hands : forall E c rs e sk, @later E c rs e -> obeys p sk e -> expands_ok e ->
  alive p s (th_of (s3 a)) (prk_of (s3 a)) po0 c -> over c -> forall rs1 r rs2, rs = rs1 ++ r :: rs2 ->
  hands p s (prk_out_after p (cs_hash s) po0 rs1) (c_cid c) (c_peer_cid c) r.
Proof.
  intros E c rs e sk (l & t & c' & Hl & R) O XO AL OV rs1 r rs2 Er.
  destruct (@live_runs E p s (th_of (s3 a)) (prk_of (s3 a)) peers_sizes _ (Wd c t) _ _ Hl OV R) as (_ & _ & t' & T & H).
  cs in T. apply app_inv_tail in T. subst t'. destruct (H (obeys_sound _ _ O XO) _ AL) as [_ H']. exact (H' _ _ _ Er).
Qed.
Lemma peers_export : forall rs e rs1 r rs2 label n sec,
  (@later EI (s3 a) rs e \/ @later ER (s3 b) rs e) -> (exists sk, obeys p sk e) -> expands_ok e ->
  rs = rs1 ++ r :: rs2 -> export_of r label n sec -> 0 <= n < 2 ^ 32 ->
  sec = exporter p (cs_hash s) (prk_out_after p (cs_hash s) po0 rs1) label n.
Proof.
  intros rs e rs1 r rs2 label n sec L [sk O] XO Er EX Hn. destruct peers_alive as (A1 & A2 & A3 & A4). 
  destruct L as [L|L]; destruct (later_hands _ _ _ _ _ L O XO ltac:(assumption) ltac:(assumption) _ _ _ Er) as [H _]; exact (H _ _ _ EX Hn).
Qed.
(** Identifiers. *)
Lemma peers_cids : cid_rfc (c_peer_cid (s3 a)) = cid_rfc (c_cid (s3 b)) /\ cid_rfc (c_peer_cid (s3 b)) = cid_rfc (c_cid (s3 a)) /\
  c_cid (s3 a) = c_cid (s0 a) /\ c_cid (s3 b) = c_cid (s0 b).
Proof.
  destruct (agree _ _ _ _ _ _ _ _ _ _ X) as (l1 & gx & x2 & d & cr0 & pub & x3 & sig & ct & y2 & sigr & y3 & dr & crr & pubr & I & R &
    _ & S1 & S2 & _ & _ & EC & _ & _ & _ & _ & _ & _ & SR).
  destruct I as (_ & I2 & _ & _ & I5 & I6 & _ & _ & _ & I10 & _). destruct R as (_ & R2' & _ & _ & _ & _ & _ & _ & R9 & R10 & R11 & _ & R13 & _).
  destruct I2 as (_ & C1 & _). destruct R2' as (_ & D1 & _).
  destruct I6 as ((_ & _ & C2 & _) & _). destruct R10 as ((_ & _ & D2 & _) & _).
  destruct I10 as ((_ & _ & C3 & _) & _ & _ & _ & _ & _ & _ & _ & C4 & _). destruct R13 as ((_ & _ & D3 & _) & _ & _ & _ & _ & _ & _ & _ & D4 & _).
  assert (CA : c_cid (s3 a) = c_cid (s0 a)) by congruence. assert (CB : c_cid (s3 b) = c_cid (s0 b)) by congruence.
  split; [|split; [congruence|split; assumption]]. rewrite C4.
  destruct I5 as (_ & _ & _ & PD & PC & _). destruct R9 as (_ & _ & _ & _ & _ & _ & PT & MS & _).
  destruct SR as (_ & _ & _ & _ & _ & P2 & _). rewrite PC. rewrite <- P2, PT in PD. rewrite CB, <- D1. symmetry.
  symmetry. refine (peer_cid_read _ _ _ _ _ PD).
  destruct X as (_ & FB & _ & _ & _ & [_ M2] & _). apply configured_fresh in FB.
  rewrite D1 in *. refine (cid_fits ER (s0 b) (zlen m2) FB _ _); [|lia]. rewrite MS.
  pose proof (bstr_le (r2_gy y2 ++ xor_bytes (r2_ptxt y2) (r2_ks y2))) as BL. rewrite zlen_app, zlen_xor, PT, zlen_app in BL.
  pose proof (zlen_nonneg _ (r2_gy y2)). match type of BL with _ + (_ + zlen ?q) <= _ => pose proof (zlen_nonneg _ q) end. rewrite PT in *. lia.
Qed.
Lemma peers_oscore : forall ra ea ra1 x ra2 rb eb rb1 y rb2 n1 n2 sa ta ia ja sb tb ib jb,
  @later EI (s3 a) ra ea -> @later ER (s3 b) rb eb -> (exists sk, obeys p sk ea) -> expands_ok ea -> (exists sk, obeys p sk eb) -> expands_ok eb ->
  ra = ra1 ++ x :: ra2 -> rb = rb1 ++ y :: rb2 -> entropies ra1 = entropies rb1 ->
  oscore_of x n1 n2 sa ta ia ja -> oscore_of y n1 n2 sb tb ib jb -> 0 <= n1 < 2 ^ 32 -> 0 <= n2 < 2 ^ 32 ->
  sa = sb /\ ta = tb /\ ia = jb /\ ja = ib.
Proof.
  intros ra ea ra1 x ra2 rb eb rb1 y rb2 n1 n2 sa ta ia ja sb tb ib jb L1 L2 [k1 O1] X1 [k2 O2] X2 E1 E2 EE OX OY H1 H2.
  destruct peers_alive as (A1 & A2 & A3 & A4). destruct peers_cids as (C1 & C2 & _).
  destruct (later_hands _ _ _ _ _ L1 O1 X1 A1 A3 _ _ _ E1) as [_ HX]. destruct (later_hands _ _ _ _ _ L2 O2 X2 A2 A4 _ _ _ E2) as [_ HY].
  destruct (HX _ _ _ _ _ _ OX H1 H2) as (-> & -> & -> & ->). destruct (HY _ _ _ _ _ _ OY H1 H2) as (-> & -> & -> & ->).
  unfold prk_out_after. rewrite EE, C1, C2. repeat split; reflexivity.
Qed.
End Peers.
