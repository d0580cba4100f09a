(** Handshakes seen as a whole: what each party computes, and agreement of honest parties. *)
From Verif Require Import Monad Api Common Msg1 Msg2 Msg3 Msg4 Exporter History Spec Rfc Uses
  Conform Wire Facts Logic Sym CborProofs RfcProofs CodecProofs WireProofs Steps Steps2 Steps3 Run2
  Run2p Run1 Run3 Run4 Sessions Fresh RoundTrip.

Lemma sizes_lens : forall s, sizes_ok s -> lens_ok s.
Proof. unfold sizes_ok, lens_ok. tauto. Qed.

Section Party.
Context {E : env}.
Definition i_facts (a : trip) (m1 m2 m3 : bytes) (l1 : list token) (gx : bytes) (x2 : run2)
    (d : dpt) (cr0 : creds) (pub : bytes) (x3 : run3) (sig ct : bytes) : Prop :=
  composed_1 (s0 a) (ev1 a) l1 (priv_of (s1 a)) gx (th_of (s1 a)) m1 /\ keeps_1 (s0 a) (s1 a) /\ c_tokens (s1 a) = [] /\
  c_chosen_method (s1 a) = nth 0 (c_methods (s0 a)) 0 /\
  processed_2 (s1 a) (ev2 a) x2 d (c_peer_cid (s2 a)) cr0 pub m2 /\ after_2 (s1 a) (s2 a) x2 /\
  peer_of (s2 a) = r2_gy x2 /\
  priv_of (s2 a) = (if responder_static (c_chosen_method (s1 a)) then [] else priv_of (s1 a)) /\
  composed_3 (s2 a) (ev3 a) x3 sig ct m3 /\ after_3 (s2 a) (s3 a) x3 /\ c_role (s3 a) = INITIATOR /\ priv_of (s3 a) = priv_of (s2 a).
Lemma initiator_facts : forall a m1 m2 m3,
  initiator a m1 m2 m3 -> sizes_ok (my_suite (s0 a)) -> is_message m2 ->
  exists l1 gx x2 d cr0 pub x3 sig ct, i_facts a m1 m2 m3 l1 gx x2 d cr0 pub x3 sig ct.
Proof.
  intros [c0 c1 c2 c3 e1 e2 e3] m1 m2 m3 ((nn & n & t & H1) & (nn2 & t2 & H2) & (nn3 & n3 & t3 & H3)) HS [HW HM].
  cbn [s0 s1 s2 s3 ev1 ev2 ev3] in *.
  pose proof (sizes_lens _ HS) as HL. assert (HE : 0 <= cs_ecc (my_suite c0)) by (unfold sizes_ok in HS; tauto).
  pose proof (sat_run _ _ _ _ _ _ _ (run_compose_1 nn n c0 t) H1 eq_refl) as R1.
  destruct R1 as (t' & l1 & priv & gx & th & T1 & A1 & A2 & A3 & A4 & A5 & A6 & _). cs in T1. apply app_inv_tail in T1. subst t'.
  cs in A1. cs in A2. cs in A3. cs in A4. cs in A5. cs in A6. subst th priv.
  assert (ES : the_suite c1 = my_suite c0) by (apply A2). rewrite <- ES in HL, HE. rename HL into HL1, HE into HE1.
  pose proof (sat_run _ _ _ _ _ _ _ (run_process_2 nn2 m2 c1 t2 HL1 HE1 HW HM) H2 eq_refl) as R2'.
  destruct R2' as (t' & x2 & d & pc & cr0 & pub & T2 & B1 & B2 & _ & _ & B3 & B4 & B5 & B6). cs in T2. apply app_inv_tail in T2. subst t'.
  cs in B1. cs in B2. cs in B3. cs in B4. cs in B6.
  assert (HL2 : lens_ok (the_suite c2)) by (destruct B2 as ((-> & _) & _); exact HL1).
  pose proof (sat_run _ _ _ _ _ _ _ (run_compose_3 nn3 n3 c2 t3 HL2) H3 eq_refl) as R3'.
  destruct R3' as (t' & x3 & sig & ct & T3 & C1 & C2 & C3 & C4 & _). cs in T3. apply app_inv_tail in T3. subst t'. 
  cs in C1. cs in C2. cs in C3. cs in C4.
  subst pc. exists l1, gx, x2, d, cr0, pub, x3, sig, ct. unfold i_facts. cbn [s0 s1 s2 s3 ev1 ev2 ev3]. repeat (split; [assumption|]). assumption.
Qed.
Definition r_facts (b : trip) (m1 m2 m3 : bytes) (x2 : run2) (sig : bytes) (x3 : run3) (d : dpt) (cr0 : creds)
    (pub ct : bytes) : Prop :=
  let d1 := snd (fst (dec_message_1 cf_canon m1)) in 
  processed_1 (s0 b) (ev1 b) d1 (peer_of (s1 b)) (th_of (s1 b)) m1 /\ keeps_1 (s0 b) (s1 b) /\ (c_tokens (s0 b) = [] -> c_tokens (s1 b) = []) /\
  c_chosen_method (s1 b) = m1_method d1 /\ cid_rfc (c_peer_cid (s1 b)) = m1_cid d1 /\
  (cid_type (c_peer_cid (s1 b)) = CID_INT \/ cid_type (c_peer_cid (s1 b)) = CID_BSTR) /\
  c_peer_csuite_len (s1 b) = zlen (m1_suites d1) /\
  (c_peer_csuite_len (s0 b) = 0 -> take (zlen (m1_suites d1)) (c_peer_csuites (s1 b)) = m1_suites d1) /\
  composed_2 (s1 b) (ev2 b) x2 (priv_of (s2 b)) sig m2 /\ after_2 (s1 b) (s2 b) x2 /\
  c_peer_cid (s2 b) = c_peer_cid (s1 b) /\
  processed_3 (s2 b) (ev3 b) x3 d cr0 pub ct m3 /\ after_3 (s2 b) (s3 b) x3 /\ c_role (s3 b) = RESPONDER /\
  priv_of (s3 b) = (if initiator_static (c_chosen_method (s2 b)) then [] else priv_of (s2 b)).
Lemma responder_facts : forall b m1 m2 m3,
  responder b m1 m2 m3 -> sizes_ok (my_suite (s0 b)) -> zlen m2 < 2 ^ 32 ->
  exists x2 sig x3 d cr0 pub ct, r_facts b m1 m2 m3 x2 sig x3 d cr0 pub ct.
Proof.
  intros [c0 c1 c2 c3 e1 e2 e3] m1 m2 m3 ((nn & t & H1) & (nn2 & n2 & t2 & H2) & (nn3 & t3 & H3)) HS HM. cbv zeta.
  cbn [s0 s1 s2 s3 ev1 ev2 ev3] in *.
  pose proof (sizes_lens _ HS) as HL. assert (HE : 0 <= cs_ecc (my_suite c0)) by (unfold sizes_ok in HS; tauto).
  pose proof (sat_run _ _ _ _ _ _ _ (run_process_1 nn m1 c0 t HE) H1 eq_refl) as R1.
  destruct R1 as (t' & gx & th & T1 & A1 & A2 & A3 & A4 & A5 & A6 & _ & _ & A7 & A8 & A9 & A10). cs in T1. apply app_inv_tail in T1. subst t'.
  cs in A1. cs in A2. cs in A3. cs in A4. cs in A5. cs in A6. cs in A7. cs in A8. cs in A9. cs in A10. subst th gx.
  assert (ES : the_suite c1 = my_suite c0) by (apply A2). rewrite <- ES in HL, HE. rename HL into HL1, HE into HE1.
  pose proof (sat_run _ _ _ _ _ _ _ (run_compose_2 nn2 n2 c1 t2 HL1) H2 eq_refl HM) as R2'.
  destruct R2' as (t' & x2 & priv & sig & T2 & B1 & B2 & _ & _ & B3 & B4 & B5 & B6 & _). cs in T2. apply app_inv_tail in T2. subst t'.
  cs in B1. cs in B2. cs in B3. cs in B4. cs in B6.
  assert (HL2 : lens_ok (the_suite c2)) by (destruct B2 as ((-> & _) & _); exact HL1).
  pose proof (sat_run _ _ _ _ _ _ _ (run_process_3 nn3 m3 c2 t3 HL2) H3 eq_refl) as R3'.
  destruct R3' as (t' & x3 & d & cr0 & pub & ct & T3 & C1 & C2 & C3 & C4). cs in T3. apply app_inv_tail in T3. subst t'. 
  cs in C1. cs in C2. cs in C3. cs in C4.
  rewrite <- B4 in B1. exists x2, sig, x3, d, cr0, pub, ct. unfold r_facts. cbn [s0 s1 s2 s3 ev1 ev2 ev3]. cbv zeta. do 2 (split; [assumption|]). split.
  { rewrite A3. intros ->. destruct (m1_ead_present _); [|reflexivity]. now destruct (f_process _). }
  repeat (split; [assumption|]). assumption.
Qed.
End Party.

(** ** Correct cryptography makes the derived values functions of their inputs *)
Section Obeys.
Variables (p : primitives) (sk : bytes -> bytes).
Lemma ob_hash : forall t x n y, obeys p sk t -> hashed t x n y -> y = p_hash p n x /\ zlen y = n.
Proof. intros t x n y (F & H & _) A. split; [exact (H _ _ _ A)|]. destruct F as [F _]. exact (F _ _ _ A). Qed.
Lemma ob_extract : forall t s i k, obeys p sk t -> extracted t s i k -> k = p_extract p s i.
Proof. intros t s i k (_ & _ & H & _) [kid A]. exact (H _ _ _ _ A). Qed.
Lemma ob_expand : forall t k i n o, obeys p sk t -> expanded t k i n o -> o = p_expand p k i n.
Proof.
  intros t k i n o ((_ & F) & _ & _ & H & _) (kid & r & A & _ & ->). rewrite <- (H _ _ _ _ _ A). apply arr_read_exact.
  destruct A as (t1 & t2 & -> & _). apply (F kid i). apply in_or_app. right. now left.
Qed.
Lemma ob_made : forall t priv pub, obeys p sk t -> made t priv pub -> pub = p_pub p priv.
Proof. intros t a b (_ & _ & _ & _ & H & _) [kid A]. exact (H _ _ _ A). Qed.
Lemma ob_agreed : forall t priv peer g, obeys p sk t -> agreed t priv peer g -> g = p_dh p priv peer.
Proof. intros t a b g (_ & _ & _ & _ & _ & H & _) [kid A]. exact (H _ _ _ _ A). Qed.
Lemma ob_agreed_lt : forall t cr peer g, obeys p sk t -> apart t -> In (EvFetch OK cr) t ->
  agreed_lt t (cr_priv cr) peer g -> g = p_dh p (sk (cr_priv cr)) peer.
Proof. intros t cr b g (_ & _ & _ & _ & _ & _ & H & _) A F X. apply (H _ _ _ X). intros kt key. now apply A. Qed.
Lemma ob_enc : forall t k n a x y, obeys p sk t -> encrypted t k n a x y -> y = p_enc p k n a x.
Proof. intros t k n a x y (_ & _ & _ & _ & _ & _ & _ & H & _) [kid A]. exact (H _ _ _ _ _ _ A). Qed.
Lemma ob_dec : forall t k n a x y, obeys p sk t -> decrypted t k n a y x -> p_dec p k n a y = Some x.
Proof. intros t k n a x y (_ & _ & _ & _ & _ & _ & _ & _ & H) [kid A]. exact (H _ _ _ _ _ _ A). Qed.
Lemma ob_next : forall t st label prk th n dh prk' g0, obeys p sk t ->
  next_prk t st label prk th n dh prk' -> (st = true -> forall g, dh t g -> g = g0) ->
  prk' = if st then p_extract p (p_expand p prk (info label th n) n) g0 else prk.
Proof.
  intros t st label prk th n dh prk' g0 O H G. unfold next_prk in H. destruct st; [|exact H].
  destruct H as (s & g & A & B & C). rewrite <- (ob_expand _ _ _ _ _ O A), <- (G eq_refl _ B). exact (ob_extract _ _ _ _ O C).
Qed.
End Obeys.

Lemma xor_twice : forall a k, zlen k = zlen a -> xor_bytes (xor_bytes a k) k = a.
Proof.
  induction a as [|x a IH]; intros [|y k] H; try reflexivity.
  cbn [xor_bytes]. rewrite Z.lxor_assoc, Z.lxor_nilpotent, Z.lxor_0_r. f_equal. apply IH. rewrite !zlen_cons in H. lia.
Qed.
Lemma one_bstr_rt : forall canon b, zlen b < 2 ^ 64 -> dec_one_bstr canon (cbor (Bstr b)) = Some b.
Proof.
  intros canon b H. unfold dec_one_bstr. rewrite <- enc_bstr_rfc, <- (app_nil_r (enc_bstr b)).
  rewrite bstr_rt by (try assumption; lia). reflexivity.
Qed.

(** ** Sizes of parts *)
Lemma cbor_in : forall l i, In i l -> zlen (cbor i) <= zlen (cbor_seq l).
Proof.
  induction l as [|x l IH]; intros i H; [contradiction|]. unfold cbor_seq in *. cbn [flat_map]. rewrite zlen_app.
  pose proof (zlen_nonneg _ (cbor x)). pose proof (zlen_nonneg _ (flat_map cbor l)).
  destruct H as [->|H]; [lia|]. specialize (IH i H). lia.
Qed.
Lemma bstr_le : forall b, zlen b <= zlen (cbor (Bstr b)).
Proof. intro b. rewrite zlen_bstr, zlen_head. unfold arg_width. repeat destruct (_ <? _); lia. Qed.
Lemma bstr_in : forall l b, In (Bstr b) l -> zlen b <= zlen (cbor_seq l).
Proof. intros l b H. apply cbor_in in H. pose proof (bstr_le b). lia. Qed.
Lemma last_suite : forall c, 1 <= c_csuite_len c -> last (suite_values c) 0 = cs_value (csuite_at c (c_csuite_len c - 1)).
Proof.
  intros c H. unfold suite_values, csuite_at. replace (Z.to_nat (c_csuite_len c)) with (S (Z.to_nat (c_csuite_len c - 1))) by lia.
  rewrite seq_S, map_app. cbn [map]. rewrite last_last. reflexivity.
Qed.
Lemma nth_forall : forall A (P : A -> Prop) l i x, Forall P l -> P x -> P (nth i l x).
Proof. intros A P l i x H Hx. destruct (nth_in_or_default i l x) as [I| ->]; [|exact Hx]. rewrite Forall_forall in H. now apply H. Qed.
Lemma int32_0 : int32 0.
Proof. unfold int32. lia. Qed.

Lemma ead_fits_1 : forall l b, (forall k, In k l -> int32 (tk_label k)) ->
  (forall k v, In k l -> snd (ead1_of k) = Some v -> zlen v <= b) -> b < 2 ^ 64 -> Forall ead_fits (map ead1_of l).
Proof.
  intros l b H1 H2 Hb. apply Forall_forall. intros e He. apply in_map_iff in He as (k & <- & Hk). split; [now apply H1|].
  destruct (snd (ead1_of k)) as [v|] eqn:V; [|exact I]. specialize (H2 k v Hk V). lia.
Qed.
(** What an honest message 1 decodes to. *)
Lemma message_1_read : forall c e l priv gx th m, composed_1 c e l priv gx th m -> typed c e -> c_tokens c = [] -> zlen m < 2 ^ 32 ->
  forall canon, exists d, dec_message_1 canon m = (true, d, []) /\
    m1_method d = my_method c /\ m1_suites d = suite_values c /\
    zs_len (m1_gx d) = zlen gx /\ (exists r, zs_ptr (m1_gx d) = Some (gx ++ r)) /\ m1_cid d = cid_rfc (c_cid c) /\
    map ead_of (m1_ead d) = map ead1_of l /\ Forall token_in (m1_ead d) /\ (m1_ead_present d = true <-> l <> []).
Proof.
  intros c e l priv gx th m (A1 & A2 & A3 & A4 & A5 & A6 & A7 & A8 & [A9 A9'] & A10) (T1 & T2 & T3) HT HM canon.
  destruct (message_1_rt canon (my_method c) (suite_values c) gx (cid_rfc (c_cid c)) (map ead1_of l)) as (d & D).
  - unfold my_method. apply nth_forall; [exact T1|apply int32_0].
  - exact A8.
  - unfold suite_values. apply Forall_forall. intros v Hv. apply in_map_iff in Hv as (i & <- & _).
    change (cs_value (nth i (c_csuites c) csuite0)) with ((fun s => cs_value s) (nth i (c_csuites c) csuite0)).
    pose proof (nth_forall _ _ (c_csuites c) i csuite0 T2) as N. apply N. apply int32_0.
  - assert (zlen gx <= zlen m); [|lia]. subst m. apply bstr_in. unfold message_1_items. cbn [In app]. auto.
  - destruct (cid_rfc (c_cid c)) as [v|b] eqn:CI; [exact A10|]. cbn [cid_ok]. assert (zlen b <= zlen m); [|lia]. subst m. apply bstr_in.
    unfold message_1_items. cbn [In app cid_item]. auto.
  - apply (ead_fits_1 l (zlen m)); [| |lia].
    + intros k Hk. destruct A2 as [A2|[-> _]]; [now apply (T3 MSG_1 l)|]. rewrite HT in Hk. contradiction.
    + intros k v Hk Hv. subst m. apply bstr_in. unfold message_1_items. apply in_or_app. right. apply in_flat_map.
      exists (ead1_of k). split; [now apply in_map|]. unfold ead_items. rewrite Hv. right. now left.
  - unfold zlen in *. rewrite map_length. exact A9'.
  - exists d. rewrite A3. destruct D as (D1 & D2 & D3 & D4 & D5 & D6 & D7 & D8 & D9). repeat split; try assumption.
    + intros X Y. apply D9 in X. subst l. now apply X.
    + intros X. apply D9. intro Y. apply map_eq_nil in Y. contradiction.
Qed.
