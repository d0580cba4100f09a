(** Successful runs of processing message 2. *)
From Verif Require Import Monad Common Msg1 Msg2 Msg3 Rfc Uses Conform Wire Logic Quiet Sym CborProofs
  RfcProofs CodecProofs WireProofs Steps Steps2 Steps3 Run2.

Section Run2p.
Context {E : env}.

(** Received items reach the process callback when there is one. *)
Definition handed (c : ctx) (t : list event) (msg : Z) (l : list token) : Prop :=
  (f_process (c_ead c) <> None -> cf_max_ead <> 0 -> l <> [] -> In (EvEadProcess msg l OK) t) /\
  (forall m' l' r, In (EvEadProcess m' l' r) t -> m' = msg /\ l' = l).
Definition processed_2 (c : ctx) (t' : list event) (x : run2) (d : dpt) (pc : conn_id)
    (cr0 : creds) (pub msg : bytes) : Prop :=
  schedule_2 t' (the_suite c) (c_chosen_method c) (th_of c) (cid_rfc pc)
      (fun t g => agreed t (priv_of c) pub g) x /\
  agreed t' (priv_of c) (r2_gy x) (r2_gxy x) /\
  (exists ct, dec_one_bstr cf_canon msg = Some (r2_gy x ++ ct) /\ r2_ptxt x = xor_bytes ct (r2_ks x) /\
     zlen ct = zlen (r2_ks x)) /\
  dec_plaintext_2 cf_canon (r2_ptxt x) = Some d /\
  cid_rfc pc = cid_read (pt_cid d) /\ (cid_type pc = CID_INT \/ cid_type pc = CID_BSTR) /\
  names false (idv_item (pt_id d)) cr0 /\ In (EvCredVerify cr0 OK (r2_cred x) pub) t' /\
  r2_ead x = stored (pt_ead d) (c_tokens c) /\ handed c t' MSG_2 (r2_ead x) /\
  checks t' (responder_static (c_chosen_method c)) pub (r2_th2 x) (r2_cred x) (r2_ead x)
    (r2_mac x) (pt_sig d) /\
  zlen (r2_gy x) = cs_ecc (the_suite c) /\ 0 <= c_chosen_method c <= 3 /\ eads_in (r2_ead x).

Lemma run_process_2 : forall nn msg c t, lens_ok (the_suite c) -> 0 <= cs_ecc (the_suite c) ->
  wf_bytes msg -> zlen msg < 2 ^ 32 ->
  sat Any (message_2_process nn msg) (Wd c t) (fun y w' => y = OK ->
    exists t' x d pc cr0 pub, w_tr w' = t' ++ t /\ processed_2 c t' x d pc cr0 pub msg /\
      after_2 c (w_ctx w') x /\ c_status (w_ctx w') = SM_VERIFIED_M2 /\ c_role (w_ctx w') = INITIATOR /\
      c_peer_cid (w_ctx w') = pc /\ 
      priv_of (w_ctx w') = (if responder_static (c_chosen_method c) then [] else priv_of c) /\
      pub_of (w_ctx w') = pub_of c /\ peer_of (w_ctx w') = r2_gy x).
Proof.
  intros nn msg c t HL He HW HM. assert (HLh := proj1 HL). assert (HLm := lens_mac _ (responder_static (c_chosen_method c)) HL).
  unfold message_2_process, enter. do 6 sy.
  call c ok_ct2_len as [r cl] w HR. okk c HR. destruct HR as (-> & z & Z1 & Z2). subst cl. 
  repeat (sy; cs). bools. eapply sat_conseq; [apply ok_parse_msg_2; [reflexivity|eassumption|assumption|lia|assumption]|].
  intros [r ct] w HR. cbn [fst snd] in HR. cbv beta iota. okk c HR. destruct HR as (gy & -> & Y1 & Y2 & Y3 & Y4).
  rewrite <- Y3.
  call c ok_comp_dh_secret as r w HR. okk c HR. destruct HR as (t2 & g & -> & D1 & D2). 
  call c ok_comp_th_2 as r w HR. okk c HR. destruct HR as (t3 & th2 & -> & T1 & T2). 
  call c ok_comp_prk_2e as r w HR. okk c HR. destruct HR as (t4 & prk & -> & P1 & P2 & _ & _).
  call c ok_comp_keystream as [r ks] w HR. okk c HR. 
  destruct HR as (t5 & -> & K1 & K2). rewrite u32_id in K1 by (split; [apply zlen_nonneg|lia]).
  call c ok_parse_plaintext_2 as [r [cr0 sig]] w HR. okk c HR. 
  destruct HR as (d & pc & A1 & -> & A2 & A3 & A4 & A5). subst sig.
  ecall c ok_ead_process as r w HR. okk c HR. destruct HR as (t6 & -> & EP). 
  nfg c. call c ok_comp_prk_3e2m as r w HR. okk c HR.
  destruct HR as (M1 & (t7 & p & pl & a & b & prk3 & -> & HA & HN & HP & HD)). cs in HD. rewrite andb_true_r in HD.
  nf c HN. 
  repeat (sy; cs). apply ok_mac_context_length. intros [r ml]. repeat (sy; cs). bools; btrue.
  call c ok_comp_mac_context as [r m] w HR. okk c HR. destruct HR as (-> & Q). unfold mac_post in Q. nf c Q.
  destruct Q as (Q1 & Q2 & Q3 & Q4 & Q5 & Q6 & [QT1 QT2] & Q7 & _).
  call c ok_comp_mac_length as [r n] w HR. okk c HR. destruct HR as (-> & -> & _).
  call c ok_comp_mac as [r mac] w HR. okk c HR. destruct HR as (t8 & -> & MA & MB).
  call c ok_verify_sign_or_mac as r w HR. repeat (sy; cs). bools; btrue. specialize (HR eq_refl). nf c HR.
  destruct HR as (t9 & -> & V1).
  unfold comp_th_3.
  call c ok_comp_th_next as r w HR. repeat (sy; cs). bools; btrue. specialize (HR eq_refl). nf c HR.
  destruct HR as (t10 & th3 & -> & U1 & U2 & _ & U3).
  repeat (sy; cs). apply sat_ret. intros _.
  eexists _, (R2 gy g th2 prk prk3 cr' (stored (pt_ead d) (c_tokens c)) mac (xor_bytes ct ks) ks th3), d, pc, cr0, pub.
  split; [cs; trx|].
  unfold mc_aad, mc_buf in *. rewrite Q1, Q2, Q3, Q4, Q5 in *.
  split; [|split; [|nfg c; repeat split; try assumption; try reflexivity]].
  - unfold processed_2, schedule_2; cbn [r2_gy r2_gxy r2_th2 r2_prk2e r2_prk3 r2_cred r2_ead r2_mac r2_ptxt r2_ks r2_th3].
    rewrite zlen_xor.
    repeat split; try assumption; try lift; try tauto.
    + unfold next_prk in *. destruct (responder_static (c_chosen_method c)); [|assumption].
      destruct HN as (sa & gg & N1 & N2 & N3). exists sa, gg. repeat split; lift.
    + exists ct. repeat split; try assumption. congruence.
    + intros A B C. destruct EP as [(f & _ & _ & _ & ->)|([?|[?|?]] & _)]; [lift|contradiction..].
    + destruct EP as [(f & _ & _ & _ & ->)|(_ & ->)]; hushed; congruence.
    + destruct EP as [(f & _ & _ & _ & ->)|(_ & ->)]; hushed; congruence.
    + unfold checks. destruct (responder_static (c_chosen_method c)); [assumption|]. unfold sig_input, external. lift.
  - unfold after_2, keeps; cbn [r2_gy r2_gxy r2_th2 r2_prk2e r2_prk3 r2_cred r2_ead r2_mac r2_ptxt r2_ks r2_th3].
    nfg c. repeat split; try reflexivity.
    + intros. now apply arr_read_blit.
    + rewrite HP. now destruct (responder_static _).
  - destruct (responder_static (c_chosen_method c)); destruct HD as [-> ->]; reflexivity.
Qed.
End Run2p.
