(** Successful runs of the message 2 calls. *)
From Verif Require Import Monad Common Msg1 Msg2 Msg3 Rfc Uses Conform Logic Quiet Sym CborProofs
  RfcProofs CodecProofs Steps Steps2.

(** Lengths the library passes on as 32-bit numbers. *)
Definition lens_ok (s : csuite) : Prop :=
  0 <= cs_hash s < 2 ^ 32 /\ 0 <= cs_mac s < 2 ^ 32 /\ 0 <= cs_key s < 2 ^ 32 /\ 0 <= cs_iv s < 2 ^ 32.
Lemma lens_mac : forall s b, lens_ok s -> 0 <= mac_length s b < 2 ^ 32.
Proof. intros s b (A & B & _). unfold mac_length. destruct b; assumption. Qed.

(** Views of an updated context, in terms of the context [c] the call started with. *)
Ltac nf c H :=
  unfold dh_own in H;
  unfold th_of, prk_of, pub_of, priv_of, peer_of, secret_of, the_suite, csuite_at, static_of,
    mac_cid in H;
  cs in H;
  change (RESPONDER =? INITIATOR) with false in H; change (INITIATOR =? RESPONDER) with false in H;
  change (INITIATOR =? INITIATOR) with true in H; change (RESPONDER =? RESPONDER) with true in H;
  change (MSG_2 =? MSG_2) with true in H; change (MSG_3 =? MSG_2) with false in H;
  cbv iota in H;
  change (nth (Z.to_nat (c_csuite_idx c)) (c_csuites c) csuite0) with (the_suite c) in H;
  change (arr_read (c_dh_peer_len c) (c_dh_peer c)) with (peer_of c) in H;
  change (arr_read (c_dh_pub_len c) (c_dh_pub c)) with (pub_of c) in H;
  change (arr_read (c_dh_priv_len c) (c_dh_priv c)) with (priv_of c) in H;
  change (arr_read (c_th_len c) (c_th c)) with (th_of c) in H;
  change (arr_read (c_prk_len c) (c_prk c)) with (prk_of c) in H;
  repeat match type of H with context [arr_read ?n (blit ?o ?x)] =>
    rewrite (arr_read_blit n o x) in H by assumption end;
  repeat match goal with A : arr_read ?n ?o = _ |- _ =>
    match type of H with context [arr_read n o] => rewrite A in H end end.
Ltac nfg c :=
  unfold dh_own;
  unfold th_of, prk_of, pub_of, priv_of, peer_of, secret_of, the_suite, csuite_at, static_of, mac_cid;
  cs;
  change (RESPONDER =? INITIATOR) with false; change (INITIATOR =? RESPONDER) with false;
  change (INITIATOR =? INITIATOR) with true; change (RESPONDER =? RESPONDER) with true;
  change (MSG_2 =? MSG_2) with true; change (MSG_3 =? MSG_2) with false;
  cbv iota;
  change (nth (Z.to_nat (c_csuite_idx c)) (c_csuites c) csuite0) with (the_suite c);
  change (arr_read (c_dh_peer_len c) (c_dh_peer c)) with (peer_of c);
  change (arr_read (c_dh_pub_len c) (c_dh_pub c)) with (pub_of c);
  change (arr_read (c_dh_priv_len c) (c_dh_priv c)) with (priv_of c);
  change (arr_read (c_th_len c) (c_th c)) with (th_of c);
  change (arr_read (c_prk_len c) (c_prk c)) with (prk_of c);
  repeat match goal with |- context [arr_read ?n (blit ?o ?x)] =>
    rewrite (arr_read_blit n o x) by assumption end;
  repeat match goal with A : arr_read ?n ?o = _ |- context [arr_read ?n ?o] => rewrite A end.
(** Use lemma [L] for the next step and keep its conclusion; [call] also keeps that the step is
    quiet. *)
Tactic Notation "ecall" ident(c) constr(L) "as" simple_intropattern(x) ident(w) ident(H) :=
  repeat (sy; cs); bools; eapply sat_conseq; [apply L; try (nfg c; assumption)|]; intros x w H; cbn [fst snd] in H; cbv beta iota.
Tactic Notation "call" ident(c) constr(L) "as" simple_intropattern(x) ident(w) ident(H) :=
  repeat (sy; cs); bools; eapply sat_conseq; [apply sat_q; [solve [auto 2 with qu nocore]|apply L; try (nfg c; assumption)]|];
  let Hq := fresh "HQ" in intros x w [H Hq]; cbn [fst snd] in H; cbn [w_tr] in Hq; cbv beta iota.
(** The event that asks is in none of the quiet parts. *)
Ltac hushed :=
  repeat match goal with H : hush ?t (Wd _ (?e ++ _)) |- _ => first [apply (hush_inv t _ e) in H | clear H] end;
  let x := fresh "x" in let I := fresh "I" in
  repeat match goal with I : In _ (_ ++ _) |- _ => apply in_app_or in I as [I|I] | I : In _ (_ :: _) |- _ => destruct I as [I|I] end;
  try match goal with
  | I : In ?x ?e, H : filter asking ?e = [] |- _ => exfalso; exact (in_quiet e x H eq_refl I)
  | I : In _ [] |- _ => destruct I
  | I : _ = _ |- _ => discriminate I
  end.
Ltac btrue := repeat match goal with H : ?b = true |- _ => is_var b; subst b end.
Ltac okk c H := sy; bools; btrue; specialize (H eq_refl); nf c H.

Section Run2.
Context {E : env}.

(** What composing message 2 computes, and the state it leaves. *)
Definition composed_2 (c : ctx) (t' : list event) (x : run2) (priv sig msg : bytes) : Prop :=
  schedule_2 t' (the_suite c) (c_chosen_method c) (th_of c) (cid_rfc (c_cid c))
      (fun t g => agreed_lt t (cr_priv (r2_cred x)) (peer_of c) g) x /\
  made t' priv (r2_gy x) /\ agreed t' priv (peer_of c) (r2_gxy x) /\
  In (EvFetch OK (r2_cred x)) t' /\ composed t' MSG_2 (c_tokens c) (r2_ead x) /\
  proves t' (responder_static (c_chosen_method c)) (r2_th2 x) (r2_cred x) (r2_ead x) (r2_mac x) sig /\
  r2_ptxt x = cbor (cid_item (cid_rfc (c_cid c))) ++ id_sent (r2_cred x) ++ cbor (Bstr sig)
              ++ eads (r2_ead x) /\
  msg = cbor (Bstr (r2_gy x ++ xor_bytes (r2_ptxt x) (r2_ks x))) /\
  zlen (r2_gy x) = cs_ecc (the_suite c) /\ 0 <= c_chosen_method c <= 3 /\ eads_in (r2_ead x).
(** What every message call leaves alone. *)
Definition keeps (c c' : ctx) : Prop :=
  the_suite c' = the_suite c /\ c_chosen_method c' = c_chosen_method c /\ c_cid c' = c_cid c /\
  c_ead c' = c_ead c /\ c_tokens c' = [].
Definition after_2 (c c' : ctx) (x : run2) : Prop :=
  keeps c c' /\ prk_of c' = r2_prk3 x /\ c_prk_state c' = PRK_3E2M /\ c_th_state c' = TH_3 /\
  (zlen (r2_th3 x) = cs_hash (the_suite c) -> th_of c' = r2_th3 x) /\
  c_prk_len c' = cs_hash (the_suite c).

Lemma zlen_wrapped : forall a p k, zlen k = zlen p -> zlen p <= zlen (cbor (Bstr (a ++ xor_bytes p k))).
Proof.
  intros a p k _. rewrite zlen_bstr, zlen_app, zlen_xor, zlen_head, arg_width_cases.
  pose proof (zlen_nonneg _ a). repeat destruct (_ <? _); lia.
Qed.
Lemma run_compose_2 : forall nn size c t, lens_ok (the_suite c) ->
  sat Any (message_2_compose nn size) (Wd c t) (fun y w' => fst y = OK -> zlen (snd y) < 2 ^ 32 ->
    exists t' x priv sig, w_tr w' = t' ++ t /\ composed_2 c t' x priv sig (snd y) /\
      after_2 c (w_ctx w') x /\ c_status (w_ctx w') = SM_WAIT_M3 /\ c_role (w_ctx w') = RESPONDER /\
      c_peer_cid (w_ctx w') = c_peer_cid c /\ priv_of (w_ctx w') = priv /\ pub_of (w_ctx w') = r2_gy x /\
      peer_of (w_ctx w') = peer_of c /\ zlen (snd y) <= size).
Proof.
  intros nn size c t HL. assert (HLh := proj1 HL). assert (HLm := lens_mac _ (responder_static (c_chosen_method c)) HL).
  unfold message_2_compose, enter. do 7 sy.
  call c ok_gen_dh_keys as r w HR. okk c HR. destruct HR as (t1 & priv & pub & -> & G1 & G2 & G3). 
  call c ok_comp_dh_secret as r w HR. okk c HR. destruct HR as (t2 & g & -> & D1 & D2). 
  call c ok_comp_th_2 as r w HR. okk c HR. destruct HR as (t3 & th2 & -> & T1 & T2). 
  call c ok_comp_prk_2e as r w HR. okk c HR. destruct HR as (t4 & prk & -> & P1 & P2 & _ & _).
  ecall c ok_ead_compose as r w HR. okk c HR. destruct HR as (t5 & l & -> & L1).
  nfg c. call c ok_comp_prk_3e2m as r w HR. okk c HR.
  destruct HR as (M1 & (t6 & p & pl & a & b & prk3 & -> & HA & HN & HP & HD)). cs in HD. rewrite andb_false_r in HD.
  destruct HD as [-> ->]. nf c HN. 
  repeat (sy; cs). apply ok_mac_context_length. intros [r ml]. repeat (sy; cs). bools; btrue.
  call c ok_comp_mac_context as [r m] w HR. okk c HR. destruct HR as (-> & Q). unfold mac_post in Q. nf c Q.
  destruct Q as (Q1 & Q2 & Q3 & Q4 & Q5 & Q6 & [QT1 QT2] & Q7 & _).
  call c ok_comp_mac_length as [r n] w HR. okk c HR. destruct HR as (-> & -> & _).
  call c ok_comp_mac as [r mac] w HR. okk c HR. destruct HR as (t7 & -> & MA & MB).
  call c ok_comp_som_length as [r sl] w HR. okk c HR. subst w.
  call c ok_comp_sign_or_mac as [r sign] w HR. repeat (sy; cs). bools; specialize (HR eq_refl). nf c HR.
  destruct HR as (t8 & -> & S1).
  cs. apply ok_comp_plaintext_len. intros [r pn]. repeat (sy; cs). bools; btrue.
  assert (HE : mc_is_ead m = false -> mc_ead m = []).
  { intros A. rewrite A in Q6. symmetry in Q6. apply negb_false_iff, Z.eqb_eq in Q6.
    rewrite Q5, (zlen_0 _ _ Q6). reflexivity. }
  call c ok_prepare_plaintext_2 as [r ptxt] w HR. repeat (sy; cs). bools; btrue. specialize (HR eq_refl). nf c HR.
  destruct HR as (-> & B1).
  call c ok_comp_keystream as [r ks] w HR. repeat (sy; cs). bools; btrue. specialize (HR eq_refl). nf c HR.
  destruct HR as (t9 & -> & K1 & K2).
  unfold comp_th_3.
  call c ok_comp_th_next as r w HR. repeat (sy; cs). bools; btrue. specialize (HR eq_refl). nf c HR.
  destruct HR as (t10 & th3 & -> & U1 & U2 & _ & U3).
  call c ok_prepare_message_2 as [r msg] w HR. okk c HR. destruct HR as (t11 & -> & W1 & W2).
  repeat (sy; cs). apply sat_ret. intros _ Hsz. cs in Hsz.
  assert (HZ : zlen ptxt < 2 ^ 32) by (eapply Z.le_lt_trans; [|exact Hsz]; rewrite W1; apply (zlen_wrapped pub ptxt ks); congruence).
  rewrite (u32_id (zlen ptxt)) in K1 by (split; [apply zlen_nonneg|exact HZ]).
  eexists _, (R2 pub g th2 prk prk3 cr l mac ptxt ks th3), priv, sign. split; [cs; trx|].
  rewrite Q2 in *. unfold mc_aad, mc_buf in *. rewrite Q1, Q2, Q3, Q4, Q5, Q7 in *.
  split; [|split; [|nfg c; repeat split; try assumption; reflexivity]].
  - unfold composed_2, schedule_2; cbn [r2_gy r2_gxy r2_th2 r2_prk2e r2_prk3 r2_cred r2_ead r2_mac r2_ptxt r2_ks r2_th3].
    repeat split; try assumption; try lift; try tauto.
    + unfold next_prk in *. destruct (responder_static (c_chosen_method c)); [|assumption].
      destruct HN as (sa & gg & N1 & N2 & N3). exists sa, gg. repeat split; lift.
    + unfold composed. destruct L1 as [(f & _ & _ & -> & _)|(_ & -> & L1)]; [left; lift|right; split; [exact L1|intros ? ? ? I; hushed]].
    + unfold proves. destruct (responder_static (c_chosen_method c)); [assumption|]. unfold sig_input, external. lift.
  - unfold after_2, keeps; cbn [r2_gy r2_gxy r2_th2 r2_prk2e r2_prk3 r2_cred r2_ead r2_mac r2_ptxt r2_ks r2_th3].
    nfg c. repeat split; try reflexivity.
    + intros. now apply arr_read_blit.
    + rewrite HP. now destruct (responder_static _).
Qed.

End Run2.
