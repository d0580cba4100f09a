(** Successful runs of the message 1 calls. *)
From Verif Require Import Monad Common Msg1 Msg2 Rfc Uses Conform Wire Logic Quiet Sym CborProofs
  RfcProofs CodecProofs WireProofs Steps Steps2 Steps3 Run2 Run2p.

(** EAD_1 items as the library writes them: always with a value. *)
Definition ead1_of (t : token) : ead :=
  (tk_label t, Some (take (zs_len (tk_val t)) (match zs_ptr (tk_val t) with Some b => b | None => [] end))).
Lemma ead1_present : forall t, tok_present t = true -> ead1_of t = ead_of t.
Proof. intros t H. unfold ead1_of, ead_of, tok_present in *. destruct (zs_ptr (tk_val t)); [reflexivity|discriminate]. Qed.

Section Run1.
Context {E : env}.

Lemma ok_read_toks1 : forall l w, sat Any (read_toks (fun _ => true) l) w
  (fun x w' => w' = w /\ x = map ead1_of l /\ Forall token_in l).
Proof.
  induction l as [|k l IH]; intro w; cbn [read_toks map]; [apply sat_ret; split; [reflexivity|split; [reflexivity|constructor]]|].
  apply sat_bind, sat_bind. unfold ead1_of at 1, rd_tok.
  destruct (Z.leb_spec (zs_len (tk_val k)) 0) as [L|L].
  - do 2 apply sat_ret. apply sat_bind. eapply sat_conseq; [apply IH|]. intros x w' (-> & -> & F). cbv beta.
    apply sat_ret. split; [reflexivity|]. split.
    + do 4 f_equal. unfold take. now replace (Z.to_nat (zs_len (tk_val k))) with 0%nat by lia.
    + constructor; [|exact F]. unfold token_in. destruct (zs_ptr (tk_val k)) as [b|]; [|exact I]. pose proof (zlen_nonneg _ b). lia.
  - destruct (zs_ptr (tk_val k)) as [b|] eqn:Z; [|apply sat_fault; exact I].
    apply sat_bind, sy_check. intros G. do 2 apply sat_ret.
    apply sat_bind. eapply sat_conseq; [apply IH|]. intros x w' (-> & -> & F). cbv beta.
    apply sat_ret. split; [reflexivity|]. split; [reflexivity|]. constructor; [|exact F]. unfold token_in. rewrite Z. lia.
Qed.
Lemma ok_encode_tokens1 : forall cap l w, sat Any (encode_tokens (fun _ => true) cap l) w
  (fun x w' => w' = w /\ forall b, x = Some b -> b = cbor_seq (flat_map ead_items (map ead1_of l)) /\ eads_in l).
Proof.
  intros cap l w. unfold encode_tokens. apply sat_bind, sy_check. intros HL. apply Z.leb_le in HL.
  destruct (zlen l =? 0); [apply sat_ret; now repeat split|].
  destruct (cap <? zsum _); [apply sat_ret; now repeat split|].
  apply sat_bind. eapply sat_conseq; [apply ok_read_toks1|]. intros x w' (-> & -> & F). cbv beta.
  apply sat_ret. split; [reflexivity|]. intros b Hb. split; [now apply enc_ead_rfc in Hb|]. now split.
Qed.

(** What composing message 1 computes. *)
Definition composed_1 (c : ctx) (t' : list event) (l : list token) (priv gx th msg : bytes) : Prop :=
  made t' priv gx /\ composed t' MSG_1 (c_tokens c) l /\
  msg = cbor_seq (message_1_items (nth 0 (c_methods c) 0) (suite_values c) gx (cid_rfc (c_cid c))
                    (map ead1_of l)) /\
  hashed t' msg (cs_hash (csuite_at c (c_csuite_len c - 1))) th /\
  zlen gx = cs_ecc (csuite_at c (c_csuite_len c - 1)) /\ c_csuite_len c <> 0 /\
  (cid_type (c_cid c) = CID_INT \/ cid_type (c_cid c) = CID_BSTR) /\
  1 <= zlen (suite_values c) <= 3 /\ eads_in l /\
  match cid_rfc (c_cid c) with CNum v => -24 <= v <= 23 | CBytes _ => True end.
Definition keeps_1 (c c' : ctx) : Prop :=
  the_suite c' = csuite_at c (c_csuite_len c - 1) /\ c_cid c' = c_cid c /\ c_ead c' = c_ead c /\
  c_csuites c' = c_csuites c /\ c_prk_state c' = PRK_INVALID /\ c_th_state c' = TH_1.
Lemma suite_values_1 : forall c, c_csuite_len c = 1 -> suite_values c = [cs_value (csuite_at c (c_csuite_len c - 1))].
Proof. intros c H. unfold suite_values, csuite_at. rewrite H. reflexivity. Qed.
Lemma run_compose_1 : forall nn size c t,
  sat Any (message_1_compose nn size) (Wd c t) (fun y w' => fst y = OK ->
    exists t' l priv gx th, w_tr w' = t' ++ t /\ composed_1 c t' l priv gx th (snd y) /\
      keeps_1 c (w_ctx w') /\ c_tokens (w_ctx w') = [] /\
      c_chosen_method (w_ctx w') = nth 0 (c_methods c) 0 /\ th_of (w_ctx w') = th /\
      priv_of (w_ctx w') = priv /\ c_status (w_ctx w') = SM_WAIT_M2 /\ c_role (w_ctx w') = INITIATOR /\
      zlen (snd y) <= size /\ c_peer_cid (w_ctx w') = c_peer_cid c).
Proof.
  intros nn size c t. unfold message_1_compose, enter. do 5 sy.
  assert (HP : c_prk_state c = PRK_INVALID) by (unfold in_state in *; bools; assumption).
  repeat (sy; cs). bools. btrue.
  ecall c ok_ead_compose as r w HR. sy. bools; btrue. specialize (HR eq_refl).
  destruct HR as (t1 & l & -> & L1). cs in L1.
  do 5 (sy; cs).
  set (su := if c_csuite_len c =? 1 then _ else _). set (ci := if cid_type (c_cid c) =? CID_INT then _ else _).
  assert (Hsu : suites_list su = suite_values c).
  { subst su. destruct (c_csuite_len c =? 1) eqn:L; [|reflexivity]. apply Z.eqb_eq in L.
    rewrite (suite_values_1 _ L). unfold the_suite, csuite_at. cs. reflexivity. }
  assert (Hci : cid_of_v ci = cid_rfc (c_cid c)).
  { subst ci. unfold cid_rfc. destruct (cid_type (c_cid c) =? CID_INT); reflexivity. }
  clearbody su ci.
  match goal with |- sat _ _ ?w0 _ => apply sat_conseq with (P := fun e w' => w' = w0 /\ forall m, e = Some m -> zlen m <= size /\ m = cbor_seq (message_1_items (nth 0 (c_methods c) 0) (suite_values c) pub (cid_rfc (c_cid c))
                    (map ead1_of l)) /\ 1 <= zlen (suite_values c) <= 3 /\ eads_in l /\
                    match cid_rfc (c_cid c) with CNum v => -24 <= v <= 23 | CBytes _ => True end) end.
  { destruct (enc_message_1 _ _ _ _ _) as [pre|] eqn:EM; [|apply sat_ret; now split].
    assert (BS : 1 <= zlen (suite_values c) <= 3 /\ match cid_rfc (c_cid c) with CNum v => -24 <= v <= 23 | CBytes _ => True end).
    { rewrite <- Hsu, <- Hci. unfold enc_message_1 in EM. destruct (enc_suites su) eqn:ES; [|discriminate].
      destruct (enc_cidv ci) eqn:EC; [|discriminate]. split.
      - destruct su; cbn [suites_list]; [change (zlen [v]) with 1; lia|]. cbn [enc_suites] in ES.
        destruct ((2 <=? zlen l0) && (zlen l0 <=? 3)) eqn:LL; [clear - LL; lia|discriminate].
      - destruct ci; cbn [cid_of_v]; [|exact I]. cbn [enc_cidv] in EC. destruct ((-24 <=? v) && (v <=? 23)) eqn:LL; [clear - LL; lia|discriminate]. }
    destruct BS as [BS BC].
    apply enc_message_1_rfc in EM. rewrite Hsu, Hci in EM.
    destruct (zlen l =? 0) eqn:Z0.
    - apply sat_ret. split; [reflexivity|]. intros m Hm. apply fits_some in Hm as [-> Hm]. 
      apply Z.eqb_eq in Z0. apply zlen_0 in Z0. subst l. repeat split; try assumption; try (apply BS); [constructor|change (zlen (@nil token)) with 0; clear; lia].
    - sy. eapply sat_conseq; [apply ok_encode_tokens1|]. intros e w [-> He]. apply sat_ret. split; [reflexivity|].
      intros m Hm. destruct e as [eb|]; [|discriminate]. destruct (He _ eq_refl) as [-> HT]. apply fits_some in Hm as [-> Hm]. split; [assumption|]. split; [|split; [exact BS|now split]].
      rewrite EM. unfold message_1_items. now rewrite <- cbor_seq_app, app_nil_r. }
  intros e w [-> He]. 
  destruct e as [msg|]; [|solve [deadend]]. destruct (He _ eq_refl) as (Hs & Hm & (HB1 & HB2) & (HB3 & HB3') & HB4).
  repeat (sy; cs).
  eapply sat_conseq; [apply ok_hash_into_th|]. intros [r n] w (th & -> & Hn). cs in Hn. subst n. cs.
  repeat (sy; cs). apply sat_ret. cs. intros _. bools.
  eexists _, l, priv, pub, th. split; [trx|].
  unfold composed_1, keeps_1. nfg c. 
  repeat split; try assumption; try reflexivity; try solve [match goal with H : _ || _ = true |- _ \/ _ => clear - H; lia end]; try lift.
  - exists kid. apply in_cons, in_cons, in_or_app. right. right. now left.
  - unfold composed. destruct L1 as [(f & _ & _ & -> & _)|(_ & -> & L1)]; [left; lift|right; split; [exact L1|intros ? ? ? I; hushed]].
  - symmetry. assumption.
  - apply arr_read_blit. symmetry. assumption.
  - apply arr_read_blit. reflexivity.
Qed.

(** ** Processing *)
(** SUITES_I as received. *)
Definition m1_suites (d : dm1) : list Z := if m1_su_choice d =? 1 then [m1_su_int d] else m1_su_list d.
Definition m1_cid (d : dm1) : cid :=
  if m1_ci_choice d =? 1 then CNum (m1_ci_int d)
  else CBytes (match zs_ptr (m1_ci_bstr d) with Some b => take (zs_len (m1_ci_bstr d)) b | None => [] end).
Definition processed_1 (c : ctx) (t' : list event) (d : dm1) (gx th msg : bytes) : Prop :=
  let s := csuite_at c (c_csuite_len c - 1) in
  In (m1_method d) (method_values c) /\ c_csuite_len c <> 0 /\
  m1_suites d <> [] /\ last (m1_suites d) 0 = cs_value s /\
  zlen gx = cs_ecc s /\ zs_len (m1_gx d) = cs_ecc s /\
  (0 < cs_ecc s -> exists r, zs_ptr (m1_gx d) = Some r /\ cs_ecc s <= zlen r /\ gx = take (cs_ecc s) r) /\
  (m1_ci_choice d = 1 -> -24 <= m1_ci_int d <= 23) /\
  (m1_ci_choice d <> 1 -> 0 < zs_len (m1_ci_bstr d) -> exists r, zs_ptr (m1_ci_bstr d) = Some r /\ zs_len (m1_ci_bstr d) <= zlen r) /\
  (m1_ead_present d = true -> f_process (c_ead c) <> None -> In (EvEadProcess MSG_1 (m1_ead d) OK) t') /\
  hashed t' msg (cs_hash s) th /\ zlen th = cs_hash s /\
  (forall m l r, In (EvEadProcess m l r) t' -> m1_ead_present d = true /\ m = MSG_1 /\ l = m1_ead d).
Lemma tokens_twice : forall a b c, set_tokens a (set_tokens b c) = set_tokens a c.
Proof. reflexivity. Qed.
Lemma suite_method : forall m c, the_suite (set_chosen_method m c) = the_suite c.
Proof. reflexivity. Qed.
Lemma run_process_1 : forall nn msg c t, 0 <= cs_ecc (csuite_at c (c_csuite_len c - 1)) ->
  sat Any (message_1_process nn msg) (Wd c t) (fun y w' => y = OK ->
    exists t' gx th, w_tr w' = t' ++ t /\
      let d := snd (fst (dec_message_1 cf_canon msg)) in 
      processed_1 c t' d gx th msg /\ keeps_1 c (w_ctx w') /\
      c_tokens (w_ctx w') = (if m1_ead_present d then match f_process (c_ead c) with Some _ => [] | None => c_tokens c end else c_tokens c) /\
      c_chosen_method (w_ctx w') = m1_method d /\ th_of (w_ctx w') = th /\
      peer_of (w_ctx w') = gx /\ c_status (w_ctx w') = SM_RECEIVED_M1 /\ c_role (w_ctx w') = RESPONDER /\
      cid_rfc (c_peer_cid (w_ctx w')) = m1_cid d /\ 
      (cid_type (c_peer_cid (w_ctx w')) = CID_INT \/ cid_type (c_peer_cid (w_ctx w')) = CID_BSTR) /\
      c_peer_csuite_len (w_ctx w') = zlen (m1_suites d) /\
      (c_peer_csuite_len c = 0 -> take (zlen (m1_suites d)) (c_peer_csuites (w_ctx w')) = m1_suites d)).
Proof.
  intros nn msg c t Hecc. unfold message_1_process, enter. do 5 sy.
  assert (HP : c_prk_state c = PRK_INVALID) by (unfold in_state in *; bools; assumption).
  destruct (dec_message_1 cf_canon msg) as [[dok d] rest] eqn:D. cs.
  do 11 (sy; cs). bools.
  match goal with |- sat _ _ (Wd ?c1 ?t1) _ => apply sat_conseq with (P := fun r w' => r = OK ->
    exists ps, w' = Wd (set_peer_csuite_len (zlen (m1_suites d)) (set_peer_csuites ps c1)) t1 /\
      m1_suites d <> [] /\ last (m1_suites d) 0 = cs_value (the_suite c1) /\
      (c_peer_csuite_len c = 0 -> take (zlen (m1_suites d)) ps = m1_suites d)) end.
  { unfold m1_suites. destruct (m1_su_choice d =? 1) eqn:S1.
    - do 4 (sy; cs). destruct (_ =? m1_su_int d) eqn:V; cbn [negb]; [|deadend]. apply Z.eqb_eq in V. apply sat_ret.
      intros _. eexists. split; [reflexivity|]. split; [discriminate|]. cbn [last]. split; [now rewrite suite_method|].
      intros HZ. rewrite HZ. reflexivity.
    - destruct (m1_su_choice d =? 0); [|deadend]. destruct (zlen (m1_su_list d) =? 0) eqn:Z0; [deadend|].
      destruct (cf_max_suites <? zlen (m1_su_list d)); [deadend|]. do 2 (sy; cs).
      destruct (_ =? last _ 0) eqn:V; cbn [negb]; [|deadend]. apply Z.eqb_eq in V. apply sat_ret.
      intros _. eexists. split; [reflexivity|]. split; [now intros HZ; rewrite HZ in Z0|].
      split; [now rewrite suite_method|]. intros _. apply take_blit. }
  intros r w HR. sy. bools. destruct (HR eq_refl) as (ps & -> & S1 & S2 & S3). cs.
  do 4 (sy; cs).
  match goal with |- sat _ _ (Wd ?c1 ?t1) _ => apply sat_conseq with (P := fun gx w' => 
    w' = Wd c1 t1 /\ (cs_ecc (csuite_at c (c_csuite_len c - 1)) <= 0 -> gx = []) /\
    (0 < cs_ecc (csuite_at c (c_csuite_len c - 1)) -> exists r, zs_ptr (m1_gx d) = Some r /\ cs_ecc (csuite_at c (c_csuite_len c - 1)) <= zlen r /\ gx = take (cs_ecc (csuite_at c (c_csuite_len c - 1))) r)) end.
  { apply ok_rd_ptr.
    - intros L. split; [reflexivity|]. split; [reflexivity|]. intros L2. exfalso. apply (Z.lt_irrefl 0). eapply Z.lt_le_trans; [exact L2|exact L].
    - intros b L Hb Hl. split; [reflexivity|]. split; [intros L2; exfalso; apply (Z.lt_irrefl 0); eapply Z.lt_le_trans; [exact L|exact L2]|].
      intros _. exists b. repeat split; assumption. }
  intros gx w (-> & G1 & G2).
  do 3 (sy; cs).
  match goal with |- sat _ _ (Wd ?c1 ?t1) _ => apply sat_conseq with (P := fun r w' => r = OK ->
    exists pc, w' = Wd (set_peer_cid pc c1) t1 /\ cid_rfc pc = m1_cid d /\ (cid_type pc = CID_INT \/ cid_type pc = CID_BSTR) /\
     (m1_ci_choice d = 1 -> -24 <= m1_ci_int d <= 23) /\
     (m1_ci_choice d <> 1 -> 0 < zs_len (m1_ci_bstr d) -> exists r, zs_ptr (m1_ci_bstr d) = Some r /\ zs_len (m1_ci_bstr d) <= zlen r)) end.
  { unfold m1_cid. destruct (m1_ci_choice d =? 1) eqn:C1.
    - apply Z.eqb_eq in C1. destruct (_ || _) eqn:R; [deadend|]. do 2 (sy; cs). apply sat_ret. intros _. eexists. split; [reflexivity|].
      unfold cid_rfc. cbn [cid_type cid_int]. rewrite Z.eqb_refl. apply orb_false_iff in R as [R1 R2].
      split; [f_equal; apply i8_range; clear - R1 R2; lia|]. split; [now left|]. split; [clear - R1 R2; lia|]. intros C2. contradiction.
    - destruct (m1_ci_choice d =? 0); [|deadend]. destruct (_ <? zs_len _); [deadend|]. sy. apply Z.eqb_neq in C1. apply ok_rd_ptr.
      + intros L. do 2 (sy; cs). apply sat_ret. intros _. eexists. split; [reflexivity|].
        split; [|split; [now right|split; [contradiction|intros _ L2; clear - L L2; lia]]]. unfold cid_rfc. cbn [cid_type cid_bstr].
        change (CID_BSTR =? CID_INT) with false. cbv iota. f_equal. destruct (zs_ptr (m1_ci_bstr d)); [|reflexivity].
        unfold take. now replace (Z.to_nat (zs_len (m1_ci_bstr d))) with 0%nat by (clear - L; lia).
      + intros b L Hb Hl. do 2 (sy; cs). apply sat_ret. intros _. eexists. split; [reflexivity|].
        split; [|split; [now right|split; [contradiction|intros; exists b; split; assumption]]]. unfold cid_rfc. cbn [cid_type cid_bstr].
        change (CID_BSTR =? CID_INT) with false. cbv iota. now rewrite Hb. }
  intros r w HC. sy. bools. destruct (HC eq_refl) as (pc & -> & P1 & P2 & P3 & P4). cs. sy.
  match goal with |- sat _ _ (Wd ?c1 ?t1) _ => apply sat_conseq with (P := fun r w' => r = OK ->
    exists te, w' = Wd (set_tokens (if m1_ead_present d then match f_process (c_ead c) with Some _ => [] | None => c_tokens c end else c_tokens c) c1) (te ++ t1) /\
     (m1_ead_present d = true -> f_process (c_ead c) <> None -> In (EvEadProcess MSG_1 (m1_ead d) OK) te) /\
     (forall m l r, In (EvEadProcess m l r) te -> m1_ead_present d = true /\ m = MSG_1 /\ l = m1_ead d)) end.
  { destruct (m1_ead_present d).
    - destruct (f_process (c_ead c)) as [f|].
      + sy. repeat (sy; cs). apply sat_ret. intros _. bools. eexists [_]. split; [now rewrite tokens_twice|]. split; [intros _ _; now left|].
        intros m l r [I|[]]. injection I; intros; subst. now split.
      + apply sat_ret. intros _. exists []. split; [|split; [intros _ HZ; now destruct HZ|contradiction]]. cbn [app]. reflexivity.
    - apply sat_ret. intros _. exists []. split; [reflexivity|split; [discriminate|contradiction]]. }
  intros r w HE. sy. bools. destruct (HE eq_refl) as (te & -> & E1 & E2). cs. repeat (sy; cs).
  eapply sat_conseq; [apply ok_hash_into_th|]. intros [r n] w (th & -> & Hn). cs in Hn. subst n. cs.
  repeat (sy; cs). apply sat_ret. cs. intros _. bools.
  assert (HG : zlen gx = cs_ecc (csuite_at c (c_csuite_len c - 1))).
  { destruct (Z.le_gt_cases (cs_ecc (csuite_at c (c_csuite_len c - 1))) 0) as [L|L].
    - rewrite (G1 L). change (zlen (@nil Z)) with 0. clear - L Hecc. lia.
    - destruct (G2 L) as (r & _ & Hr & ->). apply zlen_take. clear - L Hr. lia. }
  eexists _, gx, th. split; [trx|].
  unfold processed_1, keeps_1. nfg c. 
  repeat split; try assumption; try reflexivity; try lift.
  - match goal with H : existsb _ _ = true |- _ => apply existsb_exists in H as (m & M1 & M2) end.
    apply Z.eqb_eq in M2. now subst m.
  - now apply P3.
  - now apply P3.
  - intros A B. specialize (E1 A B). lift.
  - symmetry. assumption.
  - hushed. eapply E2. eassumption.
  - hushed. eapply E2. eassumption.
  - hushed. eapply E2. eassumption.
  - apply arr_read_blit. symmetry. assumption.
  - apply arr_read_blit. etransitivity; [exact HG|]. symmetry. assumption.
Qed.
End Run1.
