(** Successful runs of the message 3 calls. *)
From Verif Require Import Monad Common Msg1 Msg2 Msg3 Rfc Uses Conform Wire Logic Quiet Sym CborProofs
  RfcProofs CodecProofs WireProofs Steps Steps2 Steps3 Run2 Run2p.

Section Run3.
Context {E : env}.

Definition composed_3 (c : ctx) (t' : list event) (x : run3) (sig ct msg : bytes) : Prop :=
  schedule_3 t' (the_suite c) (c_chosen_method c) (th_of c) (prk_of c)
      (fun t g => agreed_lt t (cr_priv (r3_cred x)) (peer_of c) g) x /\
  In (EvFetch OK (r3_cred x)) t' /\ composed t' MSG_3 (c_tokens c) (r3_ead x) /\
  proves t' (initiator_static (c_chosen_method c)) (th_of c) (r3_cred x) (r3_ead x) (r3_mac x) sig /\
  r3_ptxt x = id_sent (r3_cred x) ++ cbor (Bstr sig) ++ eads (r3_ead x) /\
  encrypted t' (r3_key x) (r3_iv x) (aad (th_of c)) (r3_ptxt x) ct /\
  msg = cbor (Bstr ct) /\ 0 <= c_chosen_method c <= 3 /\ eads_in (r3_ead x).
Definition after_3 (c c' : ctx) (x : run3) : Prop :=
  keeps c c' /\ prk_of c' = r3_prk4 x /\ c_prk_state c' = PRK_4E3M /\ c_th_state c' = TH_4 /\
  th_of c' = r3_th4 x /\ zlen (r3_th4 x) = cs_hash (the_suite c) /\
  c_status c' = SM_COMPLETED /\ c_oscore_ok c' = true /\ c_peer_cid c' = c_peer_cid c /\
  peer_of c' = peer_of c /\ pub_of c' = pub_of c /\
  c_prk_len c' = (if initiator_static (c_chosen_method c) then cs_hash (the_suite c) else c_prk_len c).

Ltac r3s := cbn [r3_prk4 r3_key r3_iv r3_cred r3_ead r3_mac r3_ptxt r3_th4].
Lemma run_compose_3 : forall nn size c t, lens_ok (the_suite c) ->
  sat Any (message_3_compose nn size) (Wd c t) (fun y w' => fst y = OK ->
    exists t' x sig ct, w_tr w' = t' ++ t /\ composed_3 c t' x sig ct (snd y) /\
      after_3 c (w_ctx w') x /\ c_role (w_ctx w') = INITIATOR /\ priv_of (w_ctx w') = priv_of c /\
      zlen (snd y) <= size).
Proof.
  intros nn size c t HL. assert (HLm := lens_mac _ (initiator_static (c_chosen_method c)) HL).
  destruct HL as (HLh & HLc & HLk & HLi).
  unfold message_3_compose, enter. do 6 sy.
  ecall c ok_ead_compose as r w HR. okk c HR. destruct HR as (t1 & l & -> & L1).
  repeat (sy; cs). change (aad_len_of c) with (aad_len_of (set_tokens l (set_role INITIATOR (set_message MSG_3 (set_error EC_UNSPECIFIED (set_status SM_ABORTED c)))))).
  call c ok_key_iv_aad_3 as [r [[key iv] ad]] w HR. okk c HR. destruct HR as (t2 & -> & KI1 & KI2 & KI3). cs in KI3.
  nfg c. call c ok_comp_prk_4e3m as r w HR. okk c HR.
  destruct HR as (M1 & (t6 & p & pl & a & b & prk4 & -> & HA & HN & HP & HD)). cs in HD. rewrite andb_false_r in HD.
  destruct HD as [-> ->]. nf c HN. 
  repeat (sy; cs). apply ok_mac_context_length. intros [r ml]. repeat (sy; cs). bools; btrue.
  call c ok_comp_mac_context as [r m] w HR. okk c HR. destruct HR as (-> & Q). unfold mac_post in Q. nf c Q.
  destruct Q as (Q1 & Q2 & Q3 & Q4 & Q5 & Q6 & [QT1 QT2] & Q7 & _).
  call c ok_comp_mac_length as [r n] w HR. okk c HR. destruct HR as (-> & -> & _).
  call c ok_comp_mac as [r mac] w HR. okk c HR. destruct HR as (t7 & -> & MA & MB).
  call c ok_comp_som_length as [r sl] w HR. okk c HR. subst w.
  call c ok_comp_sign_or_mac as [r sign] w HR. repeat (sy; cs). bools; specialize (HR eq_refl). nf c HR.
  destruct HR as (t8 & -> & S1).
  cs. apply ok_comp_plaintext_len. intros [r pn]. repeat (sy; cs). bools; btrue.
  assert (HE : mc_is_ead m = false -> mc_ead m = []).
  { intros A. rewrite A in Q6. symmetry in Q6. apply negb_false_iff, Z.eqb_eq in Q6.
    rewrite Q5, (zlen_0 _ _ Q6). reflexivity. }
  call c ok_prepare_plaintext_3 as [r ptxt] w HR. repeat (sy; cs). bools; btrue. specialize (HR eq_refl). nf c HR.
  destruct HR as (-> & B1).
  call c ok_comp_ciphertext as [r ct] w HR. repeat (sy; cs). bools; btrue. specialize (HR eq_refl). nf c HR.
  destruct HR as (t9 & -> & C1 & C2).
  unfold comp_th_4.
  call c ok_comp_th_next as r w HR. repeat (sy; cs). bools; btrue. specialize (HR eq_refl). nf c HR.
  destruct HR as (t10 & th4 & -> & U1 & U2 & U4 & U3). specialize (U4 eq_refl).
  call c ok_gen_msg_3 as [r msg] w HR. repeat (sy; cs). bools; btrue. specialize (HR eq_refl).
  destruct HR as (-> & W1 & W2 & W3).
  repeat (sy; cs). apply sat_ret. intros _.
  eexists _, (R3 prk4 key iv cr l mac ptxt th4), sign, ct. split; [cs; trx|].
  rewrite Q2 in *. unfold mc_aad, mc_buf in *. rewrite Q1, Q2, Q3, Q4, Q5, Q7 in *. rewrite KI3 in *.
  split; [|split; [|nfg c; repeat split; try assumption; reflexivity]].
  - unfold composed_3, schedule_3; r3s.
    repeat split; try assumption; try lift; try tauto.
    + unfold next_prk in *. destruct (initiator_static (c_chosen_method c)); [|assumption].
      destruct HN as (sa & gg & N1 & N2 & N3). exists sa, gg. repeat split; lift.
    + unfold composed. destruct L1 as [(f & _ & _ & -> & _)|(_ & -> & L1)]; [left; lift|right; split; [exact L1|intros ? ? ? I; hushed]].
    + unfold proves. destruct (initiator_static (c_chosen_method c)); [assumption|]. unfold sig_input, external. lift.
  - unfold after_3, keeps; r3s.
    nfg c. repeat split; try reflexivity; try assumption. 
Qed.

Definition processed_3 (c : ctx) (t' : list event) (x : run3) (d : dpt) (cr0 : creds)
    (pub ct msg : bytes) : Prop :=
  schedule_3 t' (the_suite c) (c_chosen_method c) (th_of c) (prk_of c)
      (fun t g => agreed t (priv_of c) pub g) x /\
  dec_one_bstr cf_canon msg = Some ct /\
  decrypted t' (r3_key x) (r3_iv x) (aad (th_of c)) ct (r3_ptxt x) /\
  zlen (r3_ptxt x) = size_sub (zlen ct) (cs_tag (the_suite c)) /\
  dec_plaintext_3 cf_canon (r3_ptxt x) = Some d /\
  names true (idv_item (pt_id d)) cr0 /\ In (EvCredVerify cr0 OK (r3_cred x) pub) t' /\
  r3_ead x = stored (pt_ead d) (c_tokens c) /\ handed c t' MSG_3 (r3_ead x) /\
  checks t' (initiator_static (c_chosen_method c)) pub (th_of c) (r3_cred x) (r3_ead x)
    (r3_mac x) (pt_sig d) /\ 0 <= c_chosen_method c <= 3 /\ eads_in (r3_ead x).
Lemma run_process_3 : forall nn msg c t, lens_ok (the_suite c) ->
  sat Any (message_3_process nn msg) (Wd c t) (fun y w' => y = OK ->
    exists t' x d cr0 pub ct, w_tr w' = t' ++ t /\ processed_3 c t' x d cr0 pub ct msg /\
      after_3 c (w_ctx w') x /\ c_role (w_ctx w') = RESPONDER /\
      priv_of (w_ctx w') = (if initiator_static (c_chosen_method c) then [] else priv_of c)).
Proof.
  intros nn msg c t HL. assert (HLm := lens_mac _ (initiator_static (c_chosen_method c)) HL).
  destruct HL as (HLh & HLc & HLk & HLi).
  unfold message_3_process, enter. do 7 sy.
  repeat (sy; cs). rename b into ct, X1 into CT. bools. btrue.
  change (aad_len_of c) with (aad_len_of (set_role RESPONDER (set_message MSG_3 (set_error EC_UNSPECIFIED (set_status SM_ABORTED c))))).
  call c ok_key_iv_aad_3 as [r [[key iv] ad]] w HR. okk c HR. destruct HR as (t2 & -> & KI1 & KI2 & KI3). cs in KI3.
  call c ok_decrypt_3 as [r ptxt] w HR. repeat (sy; cs). bools; btrue. specialize (HR eq_refl). nf c HR.
  destruct HR as (t3 & -> & C1 & C2).
  call c ok_parse_plaintext_3 as [r [cr0 sig]] w HR. okk c HR. 
  destruct HR as (d & A1 & -> & A4 & A5). subst sig.
  ecall c ok_ead_process as r w HR. okk c HR. destruct HR as (t6 & -> & EP). 
  nfg c. call c ok_comp_prk_4e3m as r w HR. okk c HR.
  destruct HR as (M1 & (t7 & p & pl & a & b & prk4 & -> & HA & HN & HP & HD)). cs in HD. rewrite andb_true_r in HD.
  nf c HN. 
  repeat (sy; cs). apply ok_mac_context_length. intros [r ml]. repeat (sy; cs). bools; btrue.
  call c ok_comp_mac_context as [r m] w HR. okk c HR. destruct HR as (-> & Q). unfold mac_post in Q. nf c Q.
  destruct Q as (Q1 & Q2 & Q3 & Q4 & Q5 & Q6 & [QT1 QT2] & Q7 & _).
  call c ok_comp_mac_length as [r n] w HR. okk c HR. destruct HR as (-> & -> & _).
  call c ok_comp_mac as [r mac] w HR. okk c HR. destruct HR as (t8 & -> & MA & MB).
  call c ok_verify_sign_or_mac as r w HR. repeat (sy; cs). bools; btrue. specialize (HR eq_refl). nf c HR.
  destruct HR as (t9 & -> & V1).
  unfold comp_th_4.
  call c ok_comp_th_next as r w HR. repeat (sy; cs). bools; btrue. specialize (HR eq_refl). nf c HR.
  destruct HR as (t10 & th4 & -> & U1 & U2 & U4 & U3). specialize (U4 eq_refl).
  repeat (sy; cs). apply sat_ret. intros _.
  eexists _, (R3 prk4 key iv cr' (stored (pt_ead d) (c_tokens c)) mac ptxt th4), d, cr0, pub, ct.
  split; [cs; trx|].
  unfold mc_aad, mc_buf in *. rewrite Q1, Q2, Q3, Q4, Q5 in *. rewrite KI3 in *.
  split; [|split; [|nfg c; repeat split; try assumption; try reflexivity]].
  - unfold processed_3, schedule_3; r3s.
    repeat split; try assumption; try lift; try tauto.
    + unfold next_prk in *. destruct (initiator_static (c_chosen_method c)); [|assumption].
      destruct HN as (sa & gg & N1 & N2 & N3). exists sa, gg. repeat split; lift.
    + intros A B C. destruct EP as [(f & _ & _ & _ & ->)|([?|[?|?]] & _)]; [lift|contradiction..].
    + destruct EP as [(f & _ & _ & _ & ->)|(_ & ->)]; hushed; congruence.
    + destruct EP as [(f & _ & _ & _ & ->)|(_ & ->)]; hushed; congruence.
    + unfold checks. destruct (initiator_static (c_chosen_method c)); [assumption|]. unfold sig_input, external. lift.
  - unfold after_3, keeps; r3s.
    nfg c. repeat split; try reflexivity; try assumption.
  - destruct (initiator_static (c_chosen_method c)); destruct HD as [-> ->]; reflexivity.
Qed.
End Run3.
