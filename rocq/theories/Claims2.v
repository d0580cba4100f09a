(** Lemmas behind the property theorems on single messages.  No code of /repo is modelled here. *)
From Verif Require Import Monad Api Common Msg1 Msg2 Msg3 Msg4 Exporter History Spec Rfc Uses
  Conform Wire Received Facts Logic Sym CborProofs RfcProofs CodecProofs WireProofs Steps Steps2 Steps3 Run2
  Run2p Run1 Run3 Run4 Sessions Fresh RoundTrip Agree.

Section Claims2.
Context {E : env}.

(** ** One lemma per call: everything the run lemmas say, for equations instead of [sat]. *)
Lemma call_compose_2 : forall nn n c t m c' t', message_2_compose nn n (Wd c t) = Ret (OK, m) (Wd c' t') ->
  sizes_ok (the_suite c) -> zlen m < 2 ^ 32 ->
  exists e x priv sig, t' = e ++ t /\ composed_2 c e x priv sig m /\ after_2 c c' x /\ priv_of c' = priv /\ pub_of c' = r2_gy x.
Proof.
  intros nn n c t m c' t' H S M. pose proof (sat_run _ _ _ _ _ _ _ (run_compose_2 nn n c t (sizes_lens _ S)) H eq_refl M) as R.
  destruct R as (e & x & priv & sig & T & A & B & _ & _ & _ & C & D & _). exists e, x, priv, sig. repeat split; assumption || apply A || apply B.
Qed.
Lemma call_process_2 : forall nn m c t c' t', message_2_process nn m (Wd c t) = Ret OK (Wd c' t') ->
  sizes_ok (the_suite c) -> is_message m ->
  exists e x d cr0 pub, t' = e ++ t /\ processed_2 c e x d (c_peer_cid c') cr0 pub m /\ after_2 c c' x /\ peer_of c' = r2_gy x.
Proof.
  intros nn m c t c' t' H S [W M]. assert (HE : 0 <= cs_ecc (the_suite c)) by (unfold sizes_ok in S; tauto).
  pose proof (sat_run _ _ _ _ _ _ _ (run_process_2 nn m c t (sizes_lens _ S) HE W M) H eq_refl) as R.
  destruct R as (e & x & d & pc & cr0 & pub & T & A & B & _ & _ & C & _ & _ & D). cbn [w_ctx w_tr] in *. subst pc.
  exists e, x, d, cr0, pub. split; [exact T|]. split; [exact A|]. split; [exact B|exact D].
Qed.
Lemma call_compose_3 : forall nn n c t m c' t', message_3_compose nn n (Wd c t) = Ret (OK, m) (Wd c' t') ->
  sizes_ok (the_suite c) ->
  exists e x sig ct, t' = e ++ t /\ composed_3 c e x sig ct m /\ after_3 c c' x.
Proof.
  intros nn n c t m c' t' H S. pose proof (sat_run _ _ _ _ _ _ _ (run_compose_3 nn n c t (sizes_lens _ S)) H eq_refl) as R.
  destruct R as (e & x & sig & ct & T & A & B & _). exists e, x, sig, ct. repeat split; assumption || apply A || apply B.
Qed.
Lemma call_process_3 : forall nn m c t c' t', message_3_process nn m (Wd c t) = Ret OK (Wd c' t') ->
  sizes_ok (the_suite c) ->
  exists e x d cr0 pub ct, t' = e ++ t /\ processed_3 c e x d cr0 pub ct m /\ after_3 c c' x.
Proof.
  intros nn m c t c' t' H S. pose proof (sat_run _ _ _ _ _ _ _ (run_process_3 nn m c t (sizes_lens _ S)) H eq_refl) as R.
  destruct R as (e & x & d & cr0 & pub & ct & T & A & B & _). exists e, x, d, cr0, pub, ct. split; [exact T|]. split; [exact A|exact B].
Qed.
Lemma call_compose_4 : forall nn n c t m c' t', message_4_compose nn n (Wd c t) = Ret (OK, m) (Wd c' t') ->
  sizes_ok (the_suite c) ->
  exists e l key iv ct, t' = e ++ t /\ keys_4 e (the_suite c) (th_of c) (prk_of c) key iv /\ composed e MSG_4 (c_tokens c) l /\
    eads_in l /\ encrypted e key iv (aad (th_of c)) (eads l) ct /\ m = cbor (Bstr ct).
Proof.
  intros nn n c t m c' t' H S. pose proof (sat_run _ _ _ _ _ _ _ (run_compose_4 nn n c t (sizes_lens _ S)) H eq_refl) as R.
  destruct R as (e & l & key & iv & ct & T & A & B & C & D & F & _). exists e, l, key, iv, ct. repeat split; assumption || apply A || apply C.
Qed.
Lemma call_process_4 : forall nn m c t c' t', message_4_process nn m (Wd c t) = Ret OK (Wd c' t') ->
  sizes_ok (the_suite c) ->
  exists e key iv ct p, t' = e ++ t /\ keys_4 e (the_suite c) (th_of c) (prk_of c) key iv /\
    dec_one_bstr cf_canon m = Some ct /\ decrypted e key iv (aad (th_of c)) ct p /\ handed c e MSG_4 (dec_plaintext_4 cf_canon p).
Proof.
  intros nn m c t c' t' H S. pose proof (sat_run _ _ _ _ _ _ _ (run_process_4 nn m c t (sizes_lens _ S)) H eq_refl) as R.
  destruct R as (e & key & iv & ct & p & T & A & B & C & _ & D & _). exists e, key, iv, ct, p. split; [exact T|]. split; [exact A|]. split; [exact B|]. split; [exact C|exact D].
Qed.

(** ** Received bytes *)
Lemma one_bstr_carries : forall m b, dec_one_bstr cf_canon m = Some b -> wf_bytes m -> carries m [Bstr b] /\ wf_bytes b.
Proof.
  intros m b H W. unfold dec_one_bstr in H. destruct (dec_bstr cf_canon (DS 1 m)) as [[x s]|] eqn:B; [|discriminate]. injection H as ->.
  destruct (bstr_sound _ _ _ _ B W) as (w & A & C & _ & D). split; [|exact D]. exists w, (d_rest s). split; [exact A|].
  rewrite <- (app_nil_r w). constructor; [exact C|constructor].
Qed.
Lemma items_tokens : forall l, flat_map token_items l = flat_map ead_items (map ead_of l).
Proof. induction l as [|k l IH]; [reflexivity|]. cbn [flat_map map]. now rewrite IH. Qed.
Lemma xor_wf : forall a k, wf_bytes a -> wf_bytes k -> wf_bytes (xor_bytes a k).
Proof.
  induction a as [|x a IH]; intros [|y k] A K; try exact A. cbn [xor_bytes]. constructor.
  - inversion A as [|? ? Hx _]; inversion K as [|? ? Hy _]; subst. unfold is_byte in *.
    assert (0 <= Z.lxor x y) by (apply Z.lxor_nonneg; lia).
    split; [assumption|]. destruct (Z.eq_dec (Z.lxor x y) 0) as [->|N]; [lia|].
    apply (Z.log2_lt_pow2 _ 8); [lia|]. pose proof (Z.log2_lxor x y ltac:(lia) ltac:(lia)).
    assert (L : forall z, 0 <= z < 256 -> Z.log2 z < 8).
    { intros z Hz. destruct (Z.eq_dec z 0) as [->|Q]; [cbn; lia|]. apply Z.log2_lt_pow2; [lia|]. change (2 ^ 8) with 256. lia. }
    specialize (L x) as L1. specialize (L y) as L2. lia.
  - inversion A; inversion K; subst. now apply IH.
Qed.
Lemma arr_read_wf : forall n o, wf_bytes o -> wf_bytes (arr_read n o).
Proof.
  intros n o W. unfold arr_read. apply wf_take. unfold wf_bytes in *. apply Forall_app. split; [exact W|].
  unfold zeros. apply Forall_forall. intros x H. apply repeat_spec in H. subst. unfold is_byte. lia.
Qed.
Lemma expanded_wf : forall e k i n o, octets e -> expanded e k i n o -> wf_bytes o.
Proof. intros e k i n o [O _] (kid & r & (t1 & t2 & -> & _) & _ & ->). apply arr_read_wf. eapply O. apply in_or_app. right. now left. Qed.
Lemma decrypted_wf : forall e k n a y x, octets e -> decrypted e k n a y x -> wf_bytes x.
Proof. intros e k n a y x [_ O] (kid & t1 & t2 & -> & _). eapply O. apply in_or_app. right. now left. Qed.
Lemma wf_right : forall a b, wf_bytes (a ++ b) -> wf_bytes b.
Proof. intros a b H. unfold wf_bytes in *. now apply Forall_app in H. Qed.

(** C19 *)
Lemma authentic_2 : forall nn m c t c' t', message_2_process nn m (Wd c t) = Ret OK (Wd c' t') ->
  sizes_ok (the_suite c) -> is_message m -> c_tokens c = [] ->
  exists e, t' = e ++ t /\ (octets e ->
    exists x ct id sig cr0 pub, let st := responder_static (c_chosen_method c) in
      carries m [Bstr (r2_gy x ++ ct)] /\ zlen (r2_gy x) = cs_ecc (the_suite c) /\
      agreed e (priv_of c) (r2_gy x) (r2_gxy x) /\
      schedule_2 e (the_suite c) (c_chosen_method c) (th_of c) (cid_rfc (c_peer_cid c'))
        (fun t g => agreed t (priv_of c) pub g) x /\
      r2_ptxt x = xor_bytes ct (r2_ks x) /\
      carries (r2_ptxt x) (plaintext_2_items (cid_rfc (c_peer_cid c')) id sig (map ead_of (r2_ead x))) /\
      names false id cr0 /\ In (EvCredVerify cr0 OK (r2_cred x) pub) e /\
      checks e st pub (r2_th2 x) (r2_cred x) (r2_ead x) (r2_mac x) sig).
Proof.
  intros nn m c t c' t' H S M HT. destruct (call_process_2 _ _ _ _ _ _ H S M) as (e & x & d & cr0 & pub & T & P & A & _).
  exists e. split; [exact T|]. intro O.
  destruct P as (P1 & P2 & (ct & Q1 & Q2 & _) & P4 & P5 & P6 & P7 & P8 & P9 & P10 & P11 & P12 & P13 & P14).
  destruct (one_bstr_carries _ _ Q1 (proj1 M)) as [C1 C2]. apply wf_right in C2.
  pose proof P1 as (_ & _ & _ & _ & K & _). pose proof (expanded_wf _ _ _ _ _ O K) as WK.
  assert (WP : wf_bytes (r2_ptxt x)) by (rewrite Q2; now apply xor_wf).
  assert (ST : r2_ead x = pt_ead d) by (rewrite P9, HT; unfold stored; now destruct (pt_ead d)).
  assert (TI : Forall token_in (pt_ead d)) by (rewrite <- ST; apply P14).
  destruct (plaintext_2_sound _ _ _ P4 WP TI) as (b1 & b2 & b3 & b4 & rest & E1 & E2 & _ & E3 & E4 & E5).
  exists x, ct, (idv_item (pt_id d)), (pt_sig d), cr0, pub. cbv zeta.
  repeat (split; [assumption|]). split; [|repeat (split; [assumption|]); assumption].
  exists (b1 ++ b2 ++ b3 ++ b4), rest. rewrite E1. split; [now rewrite <- !app_assoc|]. unfold plaintext_2_items. rewrite ST, <- items_tokens.
  constructor; [rewrite P5; destruct (pt_cid d); exact E2|]. constructor; [exact E3|]. constructor; assumption.
Qed.
(** C20 *)
Lemma authentic_3 : forall nn m c t c' t', message_3_process nn m (Wd c t) = Ret OK (Wd c' t') ->
  sizes_ok (the_suite c) -> is_message m -> c_tokens c = [] ->
  c_status c' = SM_COMPLETED /\ c_oscore_ok c' = true /\
  exists e, t' = e ++ t /\ (octets e ->
    exists x ct id sig cr0 pub, let st := initiator_static (c_chosen_method c) in
      carries m [Bstr ct] /\
      schedule_3 e (the_suite c) (c_chosen_method c) (th_of c) (prk_of c) (fun t g => agreed t (priv_of c) pub g) x /\
      decrypted e (r3_key x) (r3_iv x) (aad (th_of c)) ct (r3_ptxt x) /\
      carries (r3_ptxt x) (plaintext_3_items id sig (map ead_of (r3_ead x))) /\
      names true id cr0 /\ In (EvCredVerify cr0 OK (r3_cred x) pub) e /\
      checks e st pub (th_of c) (r3_cred x) (r3_ead x) (r3_mac x) sig).
Proof.
  intros nn m c t c' t' H S M HT. destruct (call_process_3 _ _ _ _ _ _ H S) as (e & x & d & cr0 & pub & ct & T & P & A).
  split; [apply A|]. split; [apply A|]. exists e. split; [exact T|]. intro O.
  destruct P as (P1 & P2 & P3 & P4 & P5 & P6 & P7 & P8 & P9 & P10 & P11 & P12).
  destruct (one_bstr_carries _ _ P2 (proj1 M)) as [C1 _].
  pose proof (decrypted_wf _ _ _ _ _ _ O P3) as WP.
  assert (ST : r3_ead x = pt_ead d) by (rewrite P8, HT; unfold stored; now destruct (pt_ead d)).
  assert (TI : Forall token_in (pt_ead d)) by (rewrite <- ST; apply P12).
  destruct (plaintext_3_sound _ _ _ P5 WP TI) as (b2 & b3 & b4 & rest & E1 & E3 & E4 & E5).
  exists x, ct, (idv_item (pt_id d)), (pt_sig d), cr0, pub. cbv zeta.
  repeat (split; [assumption|]). split; [|repeat (split; [assumption|]); assumption].
  exists (b2 ++ b3 ++ b4), rest. rewrite E1. split; [now rewrite <- !app_assoc|]. unfold plaintext_3_items. rewrite ST, <- items_tokens.
  constructor; [exact E3|]. constructor; assumption.
Qed.

(** C15, C39: message 1 *)
Lemma call_compose_1 : forall nn n c t m c' t', message_1_compose nn n (Wd c t) = Ret (OK, m) (Wd c' t') ->
  exists e l gx, t' = e ++ t /\ composed_1 c e l (priv_of c') gx (th_of c') m /\ keeps_1 c c'.
Proof.
  intros nn n c t m c' t' H. pose proof (sat_run _ _ _ _ _ _ _ (run_compose_1 nn n c t) H eq_refl) as R.
  destruct R as (e & l & priv & gx & th & T & A & B & _ & _ & C & D & _). cbn [w_ctx w_tr snd] in *. subst priv th.
  exists e, l, gx. repeat split; assumption || apply A || apply B.
Qed.
Lemma call_process_1 : forall nn m c t c' t', message_1_process nn m (Wd c t) = Ret OK (Wd c' t') -> 0 <= cs_ecc (my_suite c) ->
  exists e, t' = e ++ t /\ let d := snd (fst (dec_message_1 cf_canon m)) in
    processed_1 c e d (peer_of c') (th_of c') m /\ keeps_1 c c' /\ c_chosen_method c' = m1_method d.
Proof.
  intros nn m c t c' t' H HE. pose proof (sat_run _ _ _ _ _ _ _ (run_process_1 nn m c t HE) H eq_refl) as R.
  destruct R as (e & gx & th & T & A & B & _ & F & C & D & _). cbn [w_ctx w_tr] in *. subst gx th.
  exists e. split; [exact T|]. split; [exact A|]. split; [exact B|exact F].
Qed.
Lemma th1_compose : forall nn n c t m c' t', message_1_compose nn n (Wd c t) = Ret (OK, m) (Wd c' t') ->
  c_th_state c' = TH_1 /\ exists e, t' = e ++ t /\ hashed e m (cs_hash (my_suite c)) (th_of c').
Proof.
  intros nn n c t m c' t' H. destruct (call_compose_1 _ _ _ _ _ _ _ H) as (e & l & gx & T & A & B). split; [apply B|]. exists e. split; [exact T|]. apply A.
Qed.
Lemma th1_process : forall nn m c t c' t', message_1_process nn m (Wd c t) = Ret OK (Wd c' t') -> 0 <= cs_ecc (my_suite c) ->
  c_th_state c' = TH_1 /\ exists e, t' = e ++ t /\ hashed e m (cs_hash (my_suite c)) (th_of c').
Proof.
  intros nn m c t c' t' H HE. destruct (call_process_1 _ _ _ _ _ _ H HE) as (e & T & A & B & _). split; [apply B|]. exists e. split; [exact T|]. apply A.
Qed.
(** C15: messages 2 and 3 *)
Lemma full_th3 : forall e x c s, full e -> hashed e x s c -> zlen c = s.
Proof. intros e x c s [F _] H. exact (F _ _ _ H). Qed.
Lemma th23_compose : forall nn n c t m c' t', message_2_compose nn n (Wd c t) = Ret (OK, m) (Wd c' t') ->
  sizes_ok (the_suite c) -> zlen m < 2 ^ 32 ->
  c_th_state c' = TH_3 /\ exists e gy ptxt prk ks cred th2 th3, let h := cs_hash (the_suite c) in
    t' = e ++ t /\ m = cbor (Bstr (gy ++ xor_bytes ptxt ks)) /\ zlen gy = cs_ecc (the_suite c) /\
    expanded e prk (info KEYSTREAM_2 th2 (zlen ptxt)) (zlen ptxt) ks /\ In (EvFetch OK cred) e /\
    hashed e (cbor_seq [Bstr gy; Bstr (th_of c)]) h th2 /\
    hashed e (cbor (Bstr th2) ++ ptxt ++ cred_bytes_of cred) h th3 /\
    (full e -> th_of c' = th3).
Proof.
  intros nn n c t m c' t' H S M. destruct (call_compose_2 _ _ _ _ _ _ _ H S M) as (e & x & priv & sig & T & P & A & _).
  destruct A as (_ & _ & _ & A1 & A2 & _). split; [exact A1|].
  destruct P as ((S1 & S2 & S3 & S4 & S5 & S6) & P1 & P2 & P3 & P4 & P5 & P6 & P7 & P8 & _).
  exists e, (r2_gy x), (r2_ptxt x), (r2_prk2e x), (r2_ks x), (r2_cred x), (r2_th2 x), (r2_th3 x). cbv zeta.
  repeat (split; [assumption|]). intro F. apply A2. now apply (full_th3 e _ _ _ F S6).
Qed.
Lemma th23_process : forall nn m c t c' t', message_2_process nn m (Wd c t) = Ret OK (Wd c' t') ->
  sizes_ok (the_suite c) -> is_message m ->
  c_th_state c' = TH_3 /\ exists e gy ct ptxt prk ks cred cr0 pub th2 th3, let h := cs_hash (the_suite c) in
    t' = e ++ t /\ carries m [Bstr (gy ++ ct)] /\ zlen gy = cs_ecc (the_suite c) /\
    ptxt = xor_bytes ct ks /\ expanded e prk (info KEYSTREAM_2 th2 (zlen ptxt)) (zlen ptxt) ks /\
    In (EvCredVerify cr0 OK cred pub) e /\
    hashed e (cbor_seq [Bstr gy; Bstr (th_of c)]) h th2 /\
    hashed e (cbor (Bstr th2) ++ ptxt ++ cred_bytes_of cred) h th3 /\
    (full e -> th_of c' = th3).
Proof.
  intros nn m c t c' t' H S M. destruct (call_process_2 _ _ _ _ _ _ H S M) as (e & x & d & cr0 & pub & T & P & A & _).
  destruct A as (_ & _ & _ & A1 & A2 & _). split; [exact A1|].
  destruct P as ((S1 & S2 & S3 & S4 & S5 & S6) & P2 & (ct & Q1 & Q2 & _) & P4 & P5 & P6 & P7 & P8 & P9 & P10 & P11 & P12 & _).
  destruct (one_bstr_carries _ _ Q1 (proj1 M)) as [C1 _].
  exists e, (r2_gy x), ct, (r2_ptxt x), (r2_prk2e x), (r2_ks x), (r2_cred x), cr0, pub, (r2_th2 x), (r2_th3 x). cbv zeta.
  repeat (split; [assumption|]). intro F. apply A2. now apply (full_th3 e _ _ _ F S6).
Qed.
Lemma th4_compose : forall nn n c t m c' t', message_3_compose nn n (Wd c t) = Ret (OK, m) (Wd c' t') ->
  sizes_ok (the_suite c) ->
  c_th_state c' = TH_4 /\ exists e key iv ptxt ct cred,
    t' = e ++ t /\ m = cbor (Bstr ct) /\ encrypted e key iv (aad (th_of c)) ptxt ct /\ In (EvFetch OK cred) e /\
    hashed e (cbor (Bstr (th_of c)) ++ ptxt ++ cred_bytes_of cred) (cs_hash (the_suite c)) (th_of c').
Proof.
  intros nn n c t m c' t' H S. destruct (call_compose_3 _ _ _ _ _ _ _ H S) as (e & x & sig & ct & T & P & A).
  destruct A as (_ & _ & _ & A1 & A2 & _). split; [exact A1|].
  destruct P as ((S1 & S2 & S3 & S4 & S5) & P1 & P2 & P3 & P4 & P5 & P6 & _).
  exists e, (r3_key x), (r3_iv x), (r3_ptxt x), ct, (r3_cred x). rewrite A2. repeat (split; [assumption|]). assumption.
Qed.
Lemma th4_process : forall nn m c t c' t', message_3_process nn m (Wd c t) = Ret OK (Wd c' t') ->
  sizes_ok (the_suite c) -> is_message m ->
  c_th_state c' = TH_4 /\ exists e key iv ptxt ct cred cr0 pub,
    t' = e ++ t /\ carries m [Bstr ct] /\ decrypted e key iv (aad (th_of c)) ct ptxt /\ In (EvCredVerify cr0 OK cred pub) e /\
    hashed e (cbor (Bstr (th_of c)) ++ ptxt ++ cred_bytes_of cred) (cs_hash (the_suite c)) (th_of c').
Proof.
  intros nn m c t c' t' H S M. destruct (call_process_3 _ _ _ _ _ _ H S) as (e & x & d & cr0 & pub & ct & T & P & A).
  destruct A as (_ & _ & _ & A1 & A2 & _). split; [exact A1|].
  destruct P as ((S1 & S2 & S3 & S4 & S5) & P2 & P3 & P4 & P5 & P6 & P7 & _). destruct (one_bstr_carries _ _ P2 (proj1 M)) as [C1 _].
  exists e, (r3_key x), (r3_iv x), (r3_ptxt x), ct, (r3_cred x), cr0, pub. rewrite A2. repeat (split; [assumption|]). assumption.
Qed.

(** C16 *)
Lemma keys_compose_2 : forall nn n c t m c' t', message_2_compose nn n (Wd c t) = Ret (OK, m) (Wd c' t') ->
  sizes_ok (the_suite c) -> zlen m < 2 ^ 32 ->
  exists e x, t' = e ++ t /\ made e (priv_of c') (r2_gy x) /\ agreed e (priv_of c') (peer_of c) (r2_gxy x) /\
    In (EvFetch OK (r2_cred x)) e /\ composed e MSG_2 (c_tokens c) (r2_ead x) /\
    schedule_2 e (the_suite c) (c_chosen_method c) (th_of c) (cid_rfc (c_cid c))
      (fun t g => agreed_lt t (cr_priv (r2_cred x)) (peer_of c) g) x /\
    m = cbor (Bstr (r2_gy x ++ xor_bytes (r2_ptxt x) (r2_ks x))) /\
    c_prk_state c' = PRK_3E2M /\ prk_of c' = r2_prk3 x.
Proof.
  intros nn n c t m c' t' H S M. destruct (call_compose_2 _ _ _ _ _ _ _ H S M) as (e & x & priv & sig & T & P & A & <- & _).
  destruct A as (_ & A1 & A2 & _). destruct P as (P0 & P1 & P2 & P3 & P4 & P5 & P6 & P7 & _). exists e, x. repeat split; assumption || apply P0.
Qed.
Lemma keys_process_2 : forall nn m c t c' t', message_2_process nn m (Wd c t) = Ret OK (Wd c' t') ->
  sizes_ok (the_suite c) -> is_message m ->
  exists e x cr0 pub ct, t' = e ++ t /\ agreed e (priv_of c) (r2_gy x) (r2_gxy x) /\ In (EvCredVerify cr0 OK (r2_cred x) pub) e /\
    schedule_2 e (the_suite c) (c_chosen_method c) (th_of c) (cid_rfc (c_peer_cid c'))
      (fun t g => agreed t (priv_of c) pub g) x /\
    carries m [Bstr (r2_gy x ++ ct)] /\ r2_ptxt x = xor_bytes ct (r2_ks x) /\
    c_prk_state c' = PRK_3E2M /\ prk_of c' = r2_prk3 x.
Proof.
  intros nn m c t c' t' H S M. destruct (call_process_2 _ _ _ _ _ _ H S M) as (e & x & d & cr0 & pub & T & P & A & _).
  destruct A as (_ & A1 & A2 & _). destruct P as (P0 & P2 & (ct & Q1 & Q2 & _) & P4 & P5 & P6 & P7 & P8 & _).
  destruct (one_bstr_carries _ _ Q1 (proj1 M)) as [C1 _]. exists e, x, cr0, pub, ct. repeat split; assumption || apply P0.
Qed.
Lemma keys_compose_3 : forall nn n c t m c' t', message_3_compose nn n (Wd c t) = Ret (OK, m) (Wd c' t') ->
  sizes_ok (the_suite c) ->
  exists e x ct, t' = e ++ t /\ In (EvFetch OK (r3_cred x)) e /\ composed e MSG_3 (c_tokens c) (r3_ead x) /\
    schedule_3 e (the_suite c) (c_chosen_method c) (th_of c) (prk_of c)
      (fun t g => agreed_lt t (cr_priv (r3_cred x)) (peer_of c) g) x /\
    encrypted e (r3_key x) (r3_iv x) (aad (th_of c)) (r3_ptxt x) ct /\ m = cbor (Bstr ct) /\
    c_prk_state c' = PRK_4E3M /\ prk_of c' = r3_prk4 x.
Proof.
  intros nn n c t m c' t' H S. destruct (call_compose_3 _ _ _ _ _ _ _ H S) as (e & x & sig & ct & T & P & A).
  destruct A as (_ & A1 & A2 & _). destruct P as (P0 & P1 & P2 & P3 & P4 & P5 & P6 & _). exists e, x, ct. repeat split; assumption || apply P0.
Qed.
Lemma keys_process_3 : forall nn m c t c' t', message_3_process nn m (Wd c t) = Ret OK (Wd c' t') ->
  sizes_ok (the_suite c) -> is_message m ->
  exists e x cr0 pub ct, t' = e ++ t /\ In (EvCredVerify cr0 OK (r3_cred x) pub) e /\
    schedule_3 e (the_suite c) (c_chosen_method c) (th_of c) (prk_of c) (fun t g => agreed t (priv_of c) pub g) x /\
    carries m [Bstr ct] /\ decrypted e (r3_key x) (r3_iv x) (aad (th_of c)) ct (r3_ptxt x) /\
    c_prk_state c' = PRK_4E3M /\ prk_of c' = r3_prk4 x.
Proof.
  intros nn m c t c' t' H S M. destruct (call_process_3 _ _ _ _ _ _ H S) as (e & x & d & cr0 & pub & ct & T & P & A).
  destruct A as (_ & A1 & A2 & _). destruct P as (P0 & P2 & P3 & P4 & P5 & P6 & P7 & _). destruct (one_bstr_carries _ _ P2 (proj1 M)) as [C1 _].
  exists e, x, cr0, pub, ct. repeat split; assumption || apply P0.
Qed.
Lemma keys_compose_4 : forall nn n c t m c' t', message_4_compose nn n (Wd c t) = Ret (OK, m) (Wd c' t') ->
  sizes_ok (the_suite c) ->
  exists e l key iv ct, t' = e ++ t /\ keys_4 e (the_suite c) (th_of c) (prk_of c) key iv /\ composed e MSG_4 (c_tokens c) l /\
    encrypted e key iv (aad (th_of c)) (eads l) ct /\ m = cbor (Bstr ct).
Proof.
  intros nn n c t m c' t' H S. destruct (call_compose_4 _ _ _ _ _ _ _ H S) as (e & l & key & iv & ct & T & A & B & _ & C & D).
  exists e, l, key, iv, ct. repeat split; assumption || apply A.
Qed.
Lemma keys_process_4 : forall nn m c t c' t', message_4_process nn m (Wd c t) = Ret OK (Wd c' t') ->
  sizes_ok (the_suite c) -> is_message m ->
  exists e key iv ct ptxt, t' = e ++ t /\ keys_4 e (the_suite c) (th_of c) (prk_of c) key iv /\
    carries m [Bstr ct] /\ decrypted e key iv (aad (th_of c)) ct ptxt.
Proof.
  intros nn m c t c' t' H S M. destruct (call_process_4 _ _ _ _ _ _ H S) as (e & key & iv & ct & p & T & A & B & C & _).
  destruct (one_bstr_carries _ _ B (proj1 M)) as [C1 _]. exists e, key, iv, ct, p. repeat split; assumption || apply A.
Qed.
Lemma keys_export : forall nn label n c t b c' t', export_prk_exporter nn label n (Wd c t) = Ret (OK, b) (Wd c' t') ->
  0 <= cs_hash (the_suite c) < 2 ^ 32 -> c_prk_len c = cs_hash (the_suite c) -> 0 <= n < 2 ^ 32 -> 0 <= c_prk_state c <= PRK_OUT ->
  exists e po, t' = e ++ t /\ prk_out_of c e po /\
    (full e -> c_prk_state c' = PRK_OUT /\ prk_of c' = po /\ exported e (the_suite c) po label n b /\ zlen b = n).
Proof.
  intros nn label n c t b c' t' H S L N P. pose proof (sat_run _ _ _ _ _ _ _ (run_export nn label n c t S L N P) H eq_refl) as R.
  destruct R as (_ & e & po & T & (q & M) & A & B). exists e, po. split; [exact T|]. split; [exact A|]. intro F.
  destruct (B F) as (B1 & B2 & B3). cbn [w_ctx] in *. split; [rewrite M; reflexivity|]. repeat split; assumption.
Qed.

(** C38 *)
Lemma mac_len : forall s m a b, mac_rule m [a; b] s (mac_length s ((m =? a) || (m =? b))).
Proof.
  intros s m a b. unfold mac_rule, mac_length. destruct (Z.eqb_spec m a) as [->|A]; [left; split; [now left|reflexivity]|].
  destruct (Z.eqb_spec m b) as [->|B]; [left; split; [right; now left|reflexivity]|].
  right. split; [intros [?|[?|[]]]; congruence|reflexivity].
Qed.
End Claims2.
