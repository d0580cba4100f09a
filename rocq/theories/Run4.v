(** Successful runs of the message 4 calls and of the exporter. *)
From Verif Require Import Monad Common Msg1 Msg2 Msg3 Msg4 Exporter Rfc Uses Conform Wire Logic Quiet Sym
  CborProofs RfcProofs CodecProofs WireProofs Steps Steps2 Steps3 Run2 Run2p.

Section Run4.
Context {E : env}.

Lemma ok_prepare_plaintext_4 : forall size c t,
  sat Any (prepare_plaintext_4 size) (Wd c t) (fun x w' => fst x = OK -> w' = Wd c t /\
    snd x = eads (c_tokens c) /\ eads_in (c_tokens c)).
Proof.
  intros size c t. unfold prepare_plaintext_4. sy. sy. sy. destruct (zlen (c_tokens c) =? 0) eqn:L.
  - apply sat_ret. intros _. split; [reflexivity|]. apply Z.eqb_eq in L. rewrite (zlen_0 _ _ L). split; [reflexivity|]. split; [constructor|]. change (zlen (@nil token)) with 0. lia.
  - sy. eapply sat_conseq; [apply ok_encode_tokens|]. intros e w [-> He]. cbv beta. destruct e as [b|]; [|deadend].
    apply sat_ret. intros _. split; [reflexivity|]. now apply He.
Qed.

Lemma gen_msg_4_ok : forall ct size m, gen_msg_4 ct size = (OK, m) -> m = cbor (Bstr ct) /\ zlen m <= size.
Proof.
  intros ct size m H. unfold gen_msg_4 in H. destruct (_ || _); [discriminate|].
  destruct (fits size (enc_bstr ct)) as [x|] eqn:F; [|discriminate]. apply fits_some in F as [-> F]. injection H as <-.
  split; [apply enc_bstr_rfc|exact F].
Qed.

Definition same_keys (c c' : ctx) : Prop :=
  prk_of c' = prk_of c /\ c_prk_state c' = c_prk_state c /\ th_of c' = th_of c /\
  c_th_state c' = c_th_state c /\ c_peer_cid c' = c_peer_cid c.
Lemma run_compose_4 : forall nn size c t, lens_ok (the_suite c) ->
  sat Any (message_4_compose nn size) (Wd c t) (fun y w' => fst y = OK ->
    exists t' l key iv ct, w_tr w' = t' ++ t /\
      keys_4 t' (the_suite c) (th_of c) (prk_of c) key iv /\ composed t' MSG_4 (c_tokens c) l /\
      eads_in l /\ encrypted t' key iv (aad (th_of c)) (eads l) ct /\ snd y = cbor (Bstr ct) /\
      zlen (snd y) <= size /\ keeps c (w_ctx w') /\ same_keys c (w_ctx w') /\
      c_status (w_ctx w') = SM_PERSISTED /\ c_oscore_ok (w_ctx w') = c_oscore_ok c).
Proof.
  intros nn size c t (HLh & HLc & HLk & HLi). unfold message_4_compose, enter. do 6 sy.
  ecall c ok_ead_compose as r w HR. okk c HR. destruct HR as (t1 & l & -> & L1).
  call c ok_prepare_plaintext_4 as [r ptxt] w HR. okk c HR. destruct HR as (-> & B1 & B2 & B3).
  repeat (sy; cs). change (aad_len_of c) with (aad_len_of (set_tokens l (set_role RESPONDER (set_message MSG_4 (set_error EC_UNSPECIFIED (set_status SM_ABORTED c)))))).
  call c ok_key_iv_aad_4 as [r [[key iv] ad]] w HR. okk c HR. destruct HR as (t2 & -> & KI1 & KI2 & KI3). cs in KI3.
  call c ok_aead_encrypt as [r ct] w HR. okk c HR. destruct HR as (t3 & -> & C1 & C2).
  repeat (sy; cs). apply sat_ret. cs. intros _. bools. subst ptxt ad.
  match goal with H : gen_msg_4 _ _ = _ |- _ => apply gen_msg_4_ok in H as [-> F] end.
  eexists _, l, key, iv, ct. split; [trx|]. unfold keys_4, same_keys, keeps. nfg c.
  repeat split; try assumption; try reflexivity; try lift.
  unfold composed. destruct L1 as [(f & _ & _ & -> & _)|(_ & -> & L1)]; [left; lift|right; split; [exact L1|intros ? ? ? I; hushed]].
Qed.
Lemma run_process_4 : forall nn msg c t, lens_ok (the_suite c) ->
  sat Any (message_4_process nn msg) (Wd c t) (fun y w' => y = OK ->
    exists t' key iv ct p, w_tr w' = t' ++ t /\
      keys_4 t' (the_suite c) (th_of c) (prk_of c) key iv /\ dec_one_bstr cf_canon msg = Some ct /\
      decrypted t' key iv (aad (th_of c)) ct p /\ zlen p = size_sub (zlen ct) (cs_tag (the_suite c)) /\
      handed c t' MSG_4 (dec_plaintext_4 cf_canon p) /\ keeps c (w_ctx w') /\ same_keys c (w_ctx w') /\
      c_status (w_ctx w') = SM_PERSISTED /\ c_oscore_ok (w_ctx w') = c_oscore_ok c).
Proof.
  intros nn msg c t (HLh & HLc & HLk & HLi). unfold message_4_process, enter. do 7 sy.
  repeat (sy; cs). rename b into ct, X1 into CT. bools. btrue.
  change (aad_len_of c) with (aad_len_of (set_role INITIATOR (set_message MSG_4 (set_error EC_UNSPECIFIED (set_status SM_ABORTED c))))).
  call c ok_key_iv_aad_4 as [r [[key iv] ad]] w HR. okk c HR. destruct HR as (t2 & -> & KI1 & KI2 & KI3). cs in KI3.
  call c ok_aead_decrypt as [r ptxt] w HR. okk c HR. destruct HR as (t3 & -> & C1 & C2).
  ecall c ok_ead_process as r w HR. okk c HR. destruct HR as (t6 & -> & EP). 
  repeat (sy; cs). apply sat_ret. cs. intros _. subst ad.
  eexists _, key, iv, ct, ptxt. split; [trx|]. unfold keys_4, same_keys, keeps. nfg c.
  repeat split; try assumption; try reflexivity; try lift.
  - intros A B C. destruct EP as [(f & _ & _ & _ & ->)|([?|[?|?]] & _)]; [lift|contradiction..].
  - destruct EP as [(f & _ & _ & _ & ->)|(_ & ->)]; hushed; congruence.
  - destruct EP as [(f & _ & _ & _ & ->)|(_ & ->)]; hushed; congruence.
Qed.

(** ** Exporter *)
Lemma expanded_in : forall t prk i n o, zlen o <= n -> (exists kid, with_key t (EvExpand kid i n OK o) kid KT_EXPAND prk) ->
  expanded t prk i n (arr_read n o).
Proof. intros t prk i n o H [kid K]. exists kid, o. repeat split; assumption. Qed.
Lemma ok_kdf_into_prk : forall len label context c t cx, reads context c cx ->
  0 <= cs_hash (the_suite c) < 2 ^ 32 ->
  sat Any (kdf_into_prk len label context) (Wd c t) (fun r w' => r = OK ->
    exists t' o, w' = Wd (set_prk_state PRK_OUT (set_prk (blit (c_prk c) o) c)) (t' ++ t) /\
      zlen o <= c_prk_len c /\
      expanded t' (prk_of c) (info label cx (cs_hash (the_suite c))) (c_prk_len c) (arr_read (c_prk_len c) o) /\
      (full t' -> zlen o = c_prk_len c)).
Proof.
  intros len label context c t cx Hc Hn. unfold kdf_into_prk. do 6 sy.
  eapply sat_conseq; [apply Hc|]. intros y w [-> ->]. repeat (sy; cs). apply sat_ret. intros _. bools.
  match goal with F : fits _ _ = Some _ |- _ => apply fits_some in F as [-> _] end.
  eexists _, _. split; [trx|]. split; [assumption|]. rewrite enc_info_rfc, u32_id by assumption. split.
  - apply expanded_in; [assumption|]. eexists. keyed.
  - intros [_ B]. eapply B. right. right. now left.
Qed.

(** What an expansion into the context leaves. *)
Definition into_prk (c : ctx) (t t' : list event) (w' : world) (label : Z) (cx po : bytes) : Prop :=
  exists p, w' = Wd (set_prk_state PRK_OUT (set_prk p c)) (t' ++ t) /\
    expanded t' (prk_of c) (info label cx (cs_hash (the_suite c))) (cs_hash (the_suite c)) po /\
    (full t' -> arr_read (c_prk_len c) p = po).
Lemma ok_compute_prk_out : forall c t, 0 <= cs_hash (the_suite c) < 2 ^ 32 -> c_prk_len c = cs_hash (the_suite c) ->
  sat Any compute_prk_out (Wd c t) (fun r w' => r = OK ->
    c_th_state c = TH_4 /\ c_prk_state c = PRK_4E3M /\
    exists t' po, into_prk c t t' w' PRK_out (th_of c) po).
Proof.
  intros c t Hn Hp. unfold compute_prk_out. repeat sy. bools.
  eapply sat_conseq; [apply ok_kdf_into_prk; [apply reads_th|assumption]|]. intros r w H' Hr. specialize (H' Hr).
  destruct H' as (t' & o & -> & A & B & C). split; [assumption|]. split; [assumption|]. exists t', (arr_read (c_prk_len c) o), (blit (c_prk c) o).
  rewrite Hp in *. split; [reflexivity|]. split; [exact B|]. intros F.
  rewrite arr_read_blit by (now apply C). symmetry. apply arr_read_exact. now apply C.
Qed.
Lemma ok_compute_new_prk_out : forall en c t, 0 <= cs_hash (the_suite c) < 2 ^ 32 -> c_prk_len c = cs_hash (the_suite c) ->
  sat Any (compute_new_prk_out en) (Wd c t) (fun r w' => r = OK ->
    c_prk_state c = PRK_OUT /\ exists t' po, into_prk c t t' w' NEW_PRK_out en po).
Proof.
  intros en c t Hn Hp. unfold compute_new_prk_out. repeat sy. bools.
  eapply sat_conseq; [apply ok_kdf_into_prk; [apply reads_ret|assumption]|]. intros r w H' Hr. specialize (H' Hr).
  destruct H' as (t' & o & -> & A & B & C). split; [assumption|]. exists t', (arr_read (c_prk_len c) o), (blit (c_prk c) o).
  rewrite Hp in *. split; [reflexivity|]. split; [exact B|]. intros F.
  rewrite arr_read_blit by (now apply C). symmetry. apply arr_read_exact. now apply C.
Qed.
Lemma ok_compute_prk_exporter : forall c t, 0 <= cs_hash (the_suite c) < 2 ^ 32 ->
  sat Any (compute_prk_exporter (cs_hash (the_suite c))) (Wd c t) (fun x w' => fst x = OK ->
    c_prk_state c = PRK_OUT /\ exists t', w' = Wd c (t' ++ t) /\
      expanded t' (prk_of c) (info PRK_exporter [] (cs_hash (the_suite c))) (cs_hash (the_suite c)) (snd x)).
Proof.
  intros c t Hn. unfold compute_prk_exporter. repeat sy. bools.
  eapply sat_conseq; [apply ok_kdf; [apply reads_ret|apply reads_prk]|]. intros [r y] w H' Hr. specialize (H' Hr).
  destruct H' as (t' & -> & A & B). split; [assumption|]. exists t'. split; [reflexivity|]. now rewrite u32_id in A.
Qed.

(** The context after a derivation: only the PRK and its state differ. *)
Definition moved (c c' : ctx) : Prop := exists p, c' = set_prk_state PRK_OUT (set_prk p c).
Lemma moved_refl : forall c, c_prk_state c = PRK_OUT -> moved c c.
Proof. intros [] H. cbn in H. subst. eexists. reflexivity. Qed.

Lemma full_sub : forall t t', full t -> (forall e, In e t' -> In e t) -> full t'.
Proof. intros t t' [A B] H. split; intros; [eapply A|eapply B]; eauto. Qed.
Ltac inn := repeat (cbn [In app]; rewrite ?in_app_iff); tauto.
Lemma run_export : forall nn label n c t, 0 <= cs_hash (the_suite c) < 2 ^ 32 ->
  c_prk_len c = cs_hash (the_suite c) -> 0 <= n < 2 ^ 32 -> 0 <= c_prk_state c <= PRK_OUT ->
  sat Any (export_prk_exporter nn label n) (Wd c t) (fun x w' => fst x = OK ->
    label_allowed label = true /\ exists t' po, w_tr w' = t' ++ t /\ moved c (w_ctx w') /\ 
      prk_out_of c t' po /\ 
      (full t' -> prk_of (w_ctx w') = po /\ exported t' (the_suite c) po label n (snd x) /\ zlen (snd x) = n)).
Proof.
  intros nn label n c t Hn Hp H0 HS. unfold export_prk_exporter. do 8 sy.
  match goal with |- sat _ _ (Wd ?c1 ?t1) _ => apply sat_conseq with (P := fun r w' => r = OK ->
    exists t' po, w_tr w' = t' ++ t /\ moved c (w_ctx w') /\ c_prk_state (w_ctx w') = PRK_OUT /\
      prk_out_of c t' po /\ (full t' -> prk_of (w_ctx w') = po)) end.
  { bools. destruct (c_prk_state c =? PRK_4E3M) eqn:S.
    - eapply sat_conseq; [apply ok_compute_prk_out; assumption|]. intros r w HR Hr.
      destruct (HR Hr) as (A & B & t' & po & p & -> & C & D). exists t', po. split; [reflexivity|].
      split; [eexists; reflexivity|]. split; [reflexivity|]. split; [|intros F; unfold prk_of; cs; now apply D].
      unfold prk_out_of. rewrite B. cbn [Z.eqb PRK_4E3M PRK_OUT Pos.eqb]. repeat split; assumption.
    - apply sat_ret. intros _. exists [], (prk_of c). apply Z.eqb_neq in S.
      assert (HO : c_prk_state c = PRK_OUT) by (unfold PRK_4E3M, PRK_OUT in *; lia).
      split; [reflexivity|]. split; [now apply moved_refl|]. split; [exact HO|]. split; [|reflexivity].
      unfold prk_out_of. now rewrite HO, Z.eqb_refl. }
  intros r [c1 t1] HR. cs in HR. sy. destruct (r =? OK) eqn:Er; [|sy; intros; discriminate].
  apply Z.eqb_eq in Er. destruct (HR Er) as (t2 & po & -> & (p & ->) & ST & PO & PE). clear HR. 
  do 4 sy.
  eapply sat_conseq; [apply (ok_compute_prk_exporter (set_prk_state PRK_OUT (set_prk p c))); assumption|].
  intros [r2 pe] w HX. cs in HX. destruct (r2 =? OK) eqn:Er2; [|do 3 sy; intros; discriminate].
  apply Z.eqb_eq in Er2. destruct (HX Er2) as (_ & t3 & -> & XP). clear HX.
  repeat sy. fin. split; [reflexivity|].
  match goal with F : fits _ _ = Some _ |- _ => apply fits_some in F as [-> _] end.
  eexists _, po. split; [trx|]. split; [eexists; reflexivity|]. split.
  { revert PO. unfold prk_out_of. destruct (c_prk_state c =? PRK_OUT); [easy|]. intros (A & B & D). repeat split; try assumption. lift. }
  intros F. assert (F2 : full t2) by (eapply full_sub; [exact F|intros e He; inn]).
  rewrite enc_info_rfc, (u32_id n) by assumption.
  assert (LN : zlen out = n) by (destruct F as [_ F]; eapply F; right; right; now left).
  split; [now apply PE|]. split; [|exact LN]. exists pe. split.
  - rewrite <- (PE F2). change (cs_hash (the_suite c)) with (cs_hash (the_suite (set_prk_state PRK_OUT (set_prk p c)))). lift.
  - eexists _, out. split; [keyed|]. split; [lia|]. symmetry. now apply arr_read_exact.
Qed.

Lemma run_key_update : forall nn en c t, 0 <= cs_hash (the_suite c) < 2 ^ 32 ->
  c_prk_len c = cs_hash (the_suite c) -> 0 <= c_prk_state c <= PRK_OUT ->
  sat Any (export_key_update nn en) (Wd c t) (fun r w' => r = OK ->
    exists t' po pn p, w' = Wd (set_oscore_ok true (set_status (c_status c) (set_prk_state PRK_OUT (set_prk p c)))) (t' ++ t) /\
      SM_COMPLETED <= c_status c /\ zlen en <> 0 /\ prk_out_of c t' po /\ 
      (full t' -> prk_of (w_ctx w') = pn /\
         expanded t' po (info NEW_PRK_out en (cs_hash (the_suite c))) (cs_hash (the_suite c)) pn)).
Proof.
  intros nn en c t Hn Hp HS. unfold export_key_update. do 7 sy.
  match goal with |- sat _ _ (Wd ?c1 ?t1) _ => set (d := c1); apply sat_conseq with (P := fun r w' => r = OK ->
    exists t' po p, w' = Wd (set_prk_state PRK_OUT (set_prk p d)) (t' ++ t) /\
      prk_out_of c t' po /\ (full t' -> prk_of (w_ctx w') = po)) end.
  { bools. destruct (c_prk_state c =? PRK_4E3M) eqn:S.
    - eapply sat_conseq; [apply (ok_compute_prk_out d); assumption|]. intros r w HR Hr.
      destruct (HR Hr) as (A & B & t' & po & p & -> & C & D). exists t', po, p. split; [reflexivity|].
      split; [|intros F; unfold prk_of; cs; now apply D].
      unfold prk_out_of. change (c_prk_state c) with (c_prk_state d). rewrite B. cbn [Z.eqb PRK_4E3M PRK_OUT Pos.eqb]. repeat split; assumption.
    - apply sat_ret. intros _. exists [], (prk_of c), (c_prk c). apply Z.eqb_neq in S. bools.
      assert (HO : c_prk_state c = PRK_OUT) by (unfold PRK_4E3M, PRK_OUT in *; lia).
      split; [subst d; rewrite <- HO; now destruct c|]. split; [|reflexivity].
      unfold prk_out_of. now rewrite HO, Z.eqb_refl. }
  intros r w HR. sy. destruct (r =? OK) eqn:Er; [|sy; intros; discriminate].
  apply Z.eqb_eq in Er. destruct (HR Er) as (t2 & po & p & -> & PO & PE). clear HR. do 1 sy.
  eapply sat_conseq; [apply ok_compute_new_prk_out; assumption|].
  intros r2 w HX. destruct (r2 =? OK) eqn:Er2; [|do 3 sy; intros; discriminate].
  apply Z.eqb_eq in Er2. destruct (HX Er2) as (_ & t3 & pn & p2 & -> & XP & XQ). clear HX.
  repeat sy. fin. subst d. exists (t3 ++ t2), po, pn, p2. split; [rewrite <- app_assoc; now destruct c|]. csall.
  split; [lia|]. split; [assumption|]. split.
  { revert PO. unfold prk_out_of. destruct (c_prk_state c =? PRK_OUT); [easy|]. intros (A & B & D). repeat split; try assumption. lift. }
  intros F. assert (F2 : full t2) by (eapply full_sub; [exact F|intros e He; inn]).
  split; [apply XQ; eapply full_sub; [exact F|intros e He; inn]|]. 
  rewrite <- (PE F2). cs in XP. lift.
Qed.

Lemma ok_oscore_id : forall i n, fst (oscore_id i n) = OK -> snd (oscore_id i n) = oscore_bytes (cid_rfc i).
Proof.
  intros i n. unfold oscore_id, cid_rfc. destruct (cid_type i =? CID_INT).
  - destruct (fits n (enc_int (cid_int i))) eqn:F; [|discriminate]. intros _. apply fits_some in F as [-> _]. cbn [snd oscore_bytes].
    apply enc_int_rfc.
  - destruct (cid_type i =? CID_BSTR); [|discriminate]. destruct (n <? zlen (cid_bstr i)); [discriminate|reflexivity].
Qed.
Lemma run_oscore : forall nn n1 n2 n3 n4 c t, 0 <= cs_hash (the_suite c) < 2 ^ 32 ->
  c_prk_len c = cs_hash (the_suite c) -> 0 <= n1 < 2 ^ 32 -> 0 <= n2 < 2 ^ 32 -> 0 <= c_prk_state c <= PRK_OUT ->
  sat Any (export_oscore_session nn n1 n2 n3 n4) (Wd c t) (fun x w' => fst x = OK ->
    c_oscore_ok c = true /\ SM_COMPLETED <= c_status c /\
    exists t' po p, w' = Wd (set_oscore_ok false (set_prk_state PRK_OUT (set_prk p c))) (t' ++ t) /\
      prk_out_of c t' po /\ 
      os_sid (snd x) = oscore_bytes (cid_rfc (c_peer_cid c)) /\
      os_rid (snd x) = oscore_bytes (cid_rfc (c_cid c)) /\
      (full t' -> prk_of (w_ctx w') = po /\
         exported t' (the_suite c) po 0 n1 (os_secret (snd x)) /\ zlen (os_secret (snd x)) = n1 /\
         exported t' (the_suite c) po 1 n2 (os_salt (snd x)) /\ zlen (os_salt (snd x)) = n2)).
Proof.
  intros nn n1 n2 n3 n4 c t Hn Hp H1 H2 HS. unfold export_oscore_session. do 8 sy.
  match goal with |- sat _ _ (Wd ?c1 ?t1) _ => set (d := c1) end.
  eapply sat_conseq; [apply (run_export true 0 n1 d); assumption|]. intros [r sec] [c1 t1] HX. cs in HX.
  destruct (r =? OK) eqn:Er; [|solve [cbv iota beta; cbn [negb]; apply sat_ret; cs; intros; discriminate]]. apply Z.eqb_eq in Er.
  destruct (HX Er) as (_ & t2 & po & -> & (p & ->) & PO & PE). clear HX. sy. sy.
  eapply sat_conseq; [apply (run_export true 1 n2); try assumption; cs; unfold PRK_OUT; lia|]. intros [r2 salt] [c2 t2'] HX. cs in HX.
  destruct (r2 =? OK) eqn:Er2; [|solve [cbv iota beta; cbn [negb]; apply sat_ret; cs; intros; discriminate]]. apply Z.eqb_eq in Er2.
  destruct (HX Er2) as (_ & t3 & po2 & -> & (p2 & ->) & PO2 & PE2). clear HX.
  pose proof (ok_oscore_id (c_peer_cid c) n3) as I1. pose proof (ok_oscore_id (c_cid c) n4) as I2.
  destruct (oscore_id (c_peer_cid c) n3) as [r3 sid]. destruct (oscore_id (c_cid c) n4) as [r4 rid]. cs in I1. cs in I2.
  repeat sy. fin. specialize (I1 eq_refl). specialize (I2 eq_refl). split; [assumption|]. split; [lia|].
  exists (t3 ++ t2), po, p2. split; [rewrite <- app_assoc; subst d; now destruct c|]. split.
  { revert PO. unfold prk_out_of. subst d. cs. destruct (c_prk_state c =? PRK_OUT); [easy|]. intros (A & B & D). repeat split; try assumption. 
    match type of D with expanded _ ?a ?b ?n ?o => change (expanded (t3 ++ t2) a b n o) end. lift. }
  split; [exact I1|]. split; [exact I2|]. intros F. 
  assert (F2 : full t2) by (eapply full_sub; [exact F|intros e He; inn]).
  assert (F3 : full t3) by (eapply full_sub; [exact F|intros e He; inn]).
  destruct (PE F2) as (A & B & C). destruct (PE2 F3) as (A2 & B2 & C2). 
  assert (EQ : po2 = po). { unfold prk_out_of in PO2. cs in PO2. rewrite Z.eqb_refl in PO2. now rewrite PO2. }
  rewrite EQ in A2, B2. split; [exact A2|]. split; [|split; [exact C|split; [|exact C2]]].
  - destruct B as (pe & B & B'). exists pe. split; lift.
  - destruct B2 as (pe & B2 & B2'). exists pe. split; lift.
Qed.
End Run4.
