(** Reception and AEAD on the successful path. *)
From Verif Require Import Monad Common Msg1 Msg2 Msg3 Msg4 Rfc Uses Conform Wire Logic Sym CborProofs
  RfcProofs CodecProofs WireProofs Steps Steps2.

Section Steps3.
Context {E : env}.

(** ** Message 2 *)
Lemma ok_rd_ptr : forall n p w (Q : bytes -> world -> Prop),
  (n <= 0 -> Q [] w) -> (forall b, 0 < n -> p = Some b -> n <= zlen b -> Q (take n b) w) ->
  sat Any (rd_ptr n p) w Q.
Proof.
  intros n p w Q H0 H. unfold rd_ptr. destruct (n <=? 0) eqn:L; [apply sat_ret; apply H0; lia|].
  destruct p as [b|]; [|apply sat_fault; exact I]. sy. sy. apply sat_ret. apply H; [lia|reflexivity|lia].
Qed.
Lemma ok_ct2_len : forall msg c t,
  sat Any (comp_ciphertext_2_len msg) (Wd c t) (fun x w' => fst x = OK -> w' = Wd c t /\
    exists z, dec_message_2 msg = Some z /\ snd x = size_sub (zs_len z) (cs_ecc (the_suite c))).
Proof.
  intros msg c t. unfold comp_ciphertext_2_len. sy. repeat sy. fin. split; [reflexivity|]. exists z. split; reflexivity.
Qed.
Lemma ok_parse_msg_2 : forall msg z e c t, e = cs_ecc (the_suite c) ->
  dec_message_2 msg = Some z -> wf_bytes msg -> zlen msg < 2 ^ 64 -> 0 <= e ->
  sat Any (parse_msg_2 msg (size_sub (zs_len z) e)) (Wd c t) (fun x w' => fst x = OK ->
    exists gy, w' = Wd (set_dh_peer (blit (c_dh_peer c) gy) (set_dh_peer_len e c)) t /\ zlen gy = e /\
      dec_one_bstr cf_canon msg = Some (gy ++ snd x) /\ zlen (snd x) = size_sub (zs_len z) e /\ zlen (snd x) <= zlen msg).
Proof.
  intros msg z e c t He0 Hz W HL He. unfold parse_msg_2. rewrite Hz.
  unfold dec_message_2 in Hz. destruct (dec_str_p cf_canon 2 zstr0 (DS 1 msg)) as [[ok z0] s'] eqn:D.
  destruct ok; [|discriminate]. injection Hz as ->.
  destruct (str_p_sound _ _ _ _ _ _ D W) as (h & r & P1 & P2 & P3 & P4 & P5 & P6 & _).
  assert (Hr : zlen r <= zlen msg).
  { unfold ate in P3. cbn [d_rest] in P3. pose proof (f_equal zlen P3) as Q1. pose proof (f_equal zlen P6) as Q2.
    rewrite !zlen_app in Q1. rewrite zlen_app in Q2. pose proof (zlen_nonneg _ h). lia. }
  assert (Hone : dec_one_bstr cf_canon msg = Some (take (zs_len z) r)).
  { unfold dec_one_bstr, dec_bstr, dec_str. rewrite D. destruct z as [v p]. cbn [zs_ptr zs_len] in *. subst p. reflexivity. }
  rewrite P1. repeat sy. cs. rewrite <- He0. apply ok_rd_ptr.
  - intros Hn. repeat sy. apply ok_rd_ptr.
    + intros Hm. fin. exists []. assert (Hx : e = 0) by lia. rewrite Hx in *.
      unfold size_sub in *. rewrite Z.sub_0_r in *. pose proof (Z.mod_pos_bound (zs_len z) (2 ^ 64) ltac:(lia)).
      rewrite Z.mod_small in * by lia. replace (zs_len z) with 0 in * by lia. repeat split; try assumption; try lia.
      apply zlen_nonneg.
    + intros b Hm Hb Hl. fin. assert (Hx : e = 0) by lia. rewrite Hx in *. injection Hb as <-.
      unfold drop in *. cbn [Z.to_nat skipn] in *.
      unfold size_sub in *. rewrite Z.sub_0_r in *. rewrite Z.mod_small in * by lia.
      exists []. rewrite zlen_take by lia. repeat split; try assumption; lia.
  - intros b Hn Hb Hl. injection Hb as <-. repeat sy.
    assert (Hd : zlen (drop e r) = zlen r - e) by (apply zlen_drop; lia).
    assert (Ht : zlen (take e r) = e) by (apply zlen_take; lia).
    apply ok_rd_ptr.
    + intros Hm. fin. exists (take e r). unfold size_sub in *. pose proof (Z.mod_pos_bound (zs_len z - e) (2 ^ 64) ltac:(lia)).
      assert (Hz : zs_len z = e).
      { assert (Hq : (zs_len z - e) mod 2 ^ 64 = 0) by lia.
        assert (- 2 ^ 64 < zs_len z - e < 2 ^ 64) by lia. apply Z.mod_divide in Hq; [|lia]. destruct Hq as [q Hq].
        assert (q = 0) by nia. lia. }
      rewrite Hz, Z.sub_diag in *. rewrite app_nil_r. repeat split; try assumption; try reflexivity. apply zlen_nonneg.
    + intros b Hm Hb Hl2. injection Hb as <-. fin. exists (take e r).
      rewrite (zlen_take _ _ (drop e r)) by lia.
      assert (Hz : size_sub (zs_len z) e = zs_len z - e).
      { unfold size_sub in *. destruct (Z.lt_ge_cases (zs_len z) e).
        - exfalso. rewrite <- (Z.mod_add _ 1) in Hl2 by lia. rewrite Z.mod_small in Hl2 by lia. lia.
        - apply Z.mod_small. lia. }
      rewrite Hz in *. repeat split; try assumption; try reflexivity; try lia.
      rewrite Hone. f_equal. unfold take, drop. rewrite <- (firstn_skipn (Z.to_nat e) (firstn (Z.to_nat (zs_len z)) r)).
      rewrite firstn_firstn, skipn_firstn_comm. f_equal; f_equal; lia.
Qed.

(** ** Plaintexts *)
Definition cid_read (i : cidv) : cid := match i with CidInt v => CNum v | CidBstr b => CBytes b end.
Lemma i8_range : forall v, -24 <= v <= 23 -> i8 v = v.
Proof.
  intros v H. unfold i8. change (2 ^ 8) with 256. destruct (Z.lt_ge_cases v 0).
  - rewrite <- (Z.mod_add _ 1), Z.mod_small by lia. replace (v + 1 * 256 <? 128) with false by lia. lia.
  - rewrite Z.mod_small by lia. replace (v <? 128) with true by lia. lia.
Qed.
Definition cidv_in (i : cidv) : Prop := match i with CidInt v => -24 <= v <= 23 | CidBstr _ => True end.
Lemma ok_store_peer_cid : forall i c t, cidv_in i ->
  sat Any (store_peer_cid i) (Wd c t) (fun r w' => r = OK ->
    exists pc, w' = Wd (set_peer_cid pc c) t /\ cid_rfc pc = cid_read i /\
      (cid_type pc = CID_INT \/ cid_type pc = CID_BSTR)).
Proof.
  intros i c t Hi. unfold store_peer_cid. destruct i as [v|b]; repeat sy; fin.
  - eexists. split; [reflexivity|]. split; [|now left]. unfold cid_rfc. cbn [cid_type cid_int cid_read].
    rewrite Z.eqb_refl. cbn [cidv_in] in Hi. now rewrite i8_range.
  - eexists. split; [reflexivity|]. split; [reflexivity|now right].
Qed.
Lemma ok_parse_id_cred : forall first i w,
  sat Any (parse_id_cred first i) w (fun x w' => fst x = OK -> w' = w /\ names first (idv_item i) (snd x)).
Proof.
  intros first i w. unfold parse_id_cred.
  assert (HC : forall ch x, creds_of_chain ch = x -> fst x = OK -> names_cert (chain_item ch) (snd x)).
  { intros [b|l] x <- H; cbn [creds_of_chain chain_item] in *; [constructor|]. destruct (_ <? _); [discriminate|constructor]. }
  assert (HH : forall h x, creds_of_x5t h = x -> fst x = OK -> names_hash (x5t_item h) (snd x)).
  { intros [[v|b] fp] x <- H; cbn [creds_of_x5t] in *; [constructor|]. destruct (_ <? _); [discriminate|constructor]. }
  assert (HK : forall k l, param 33 (opt_pair 4 kid_item k ++ l) = param 33 l /\ param 34 (opt_pair 4 kid_item k ++ l) = param 34 l)
    by (intros [k|] l; split; reflexivity).
  destruct i as [v|b|[k ch h]].
  - fin. split; reflexivity.
  - repeat sy. fin. split; reflexivity.
  - unfold names, idv_item, cmap_item. cbn [mp_kid mp_chain mp_x5t]. destruct (HK k (opt_pair 33 chain_item ch ++ opt_pair 34 x5t_item h)) as [-> ->].
    destruct ch as [ch|], h as [h|]; cbn [opt_pair app param Z.eqb Pos.eqb].
    + destruct (creds_of_chain ch) as [r cr] eqn:C. sy. bools. destruct first.
      * fin. split; [reflexivity|]. apply (HC ch _ C eq_refl).
      * apply sat_ret. intro H. split; [reflexivity|]. now apply (HH h _ eq_refl).
    + apply sat_ret. intro H. split; [reflexivity|]. now apply (HC ch _ eq_refl).
    + apply sat_ret. intro H. split; [reflexivity|]. now apply (HH h _ eq_refl).
    + fin. split; reflexivity.
Qed.
Definition stored (l l0 : list token) : list token := match l with [] => l0 | _ => l end.
Lemma ok_store_tokens : forall l c t,
  sat Any (store_tokens l) (Wd c t) (fun _ w' => w' = Wd (set_tokens (stored l (c_tokens c)) c) t).
Proof.
  intros l c t. unfold store_tokens. destruct (zlen l =? 0) eqn:L.
  - apply Z.eqb_eq in L. rewrite (zlen_0 _ _ L). apply sat_ret. cbn [stored]. now rewrite set_tokens_eta.
  - sy. sy. sy. destruct l; [discriminate|reflexivity].
Qed.
Lemma cidv_range : forall canon s i s', dec_cidv canon s = Some (i, s') -> cidv_in i.
Proof.
  intros canon s i s' H. unfold dec_cidv in H. destruct (dec_bstr canon s) as [[b s1]|].
  - injection H as <- _. exact I.
  - destruct (dec_int32 canon s) as [[v s1]|]; [|discriminate]. destruct (_ && _) eqn:R; [|discriminate]. injection H as <- _.
    cbn [cidv_in]. lia.
Qed.
Lemma plaintext_2_range : forall canon p d, dec_plaintext_2 canon p = Some d -> cidv_in (pt_cid d).
Proof.
  intros canon p d H. unfold dec_plaintext_2 in H. destruct (dec_cidv canon (DS 9 p)) as [[i s1]|] eqn:C; [|discriminate].
  destruct (dec_idv canon s1) as [[? s2]|]; [|discriminate]. destruct (dec_bstr canon s2) as [[? s3]|]; [|discriminate].
  destruct (dec_ead canon s3) as [[ok l] s4]. injection H as <-. cbn [pt_cid]. eapply cidv_range; eassumption.
Qed.
Lemma ok_parse_plaintext_2 : forall p c t,
  sat Any (parse_plaintext_2 p) (Wd c t) (fun x w' => fst x = OK ->
    exists d pc, dec_plaintext_2 cf_canon p = Some d /\
      w' = Wd (set_tokens (stored (pt_ead d) (c_tokens c)) (set_peer_cid pc c)) t /\
      cid_rfc pc = cid_read (pt_cid d) /\ (cid_type pc = CID_INT \/ cid_type pc = CID_BSTR) /\
      names false (idv_item (pt_id d)) (fst (snd x)) /\ snd (snd x) = pt_sig d).
Proof.
  intros p c t. unfold parse_plaintext_2. repeat sy.
  match goal with X : dec_plaintext_2 _ _ = Some ?d |- _ => rename X into D; rename d into d0 end.
  eapply sat_conseq; [apply ok_store_peer_cid; eapply plaintext_2_range; eassumption|]. intros r w H. sy. bools.
  destruct (H eq_refl) as (pc & -> & P1 & P2). repeat sy.
  eapply sat_conseq; [apply ok_parse_id_cred|]. intros [r cr] w HI. cbn [fst snd] in HI. repeat sy. bools. destruct (HI eq_refl) as [-> N].
  eapply sat_conseq; [apply ok_store_tokens|]. intros [] w ->. fin. exists d0, pc. repeat split; assumption.
Qed.
Lemma ok_parse_plaintext_3 : forall p c t,
  sat Any (parse_plaintext_3 p) (Wd c t) (fun x w' => fst x = OK ->
    exists d, dec_plaintext_3 cf_canon p = Some d /\
      w' = Wd (set_tokens (stored (pt_ead d) (c_tokens c)) c) t /\
      names true (idv_item (pt_id d)) (fst (snd x)) /\ snd (snd x) = pt_sig d).
Proof.
  intros p c t. unfold parse_plaintext_3. repeat sy.
  match goal with X : dec_plaintext_3 _ _ = Some ?d |- _ => rename X into D; rename d into d0 end.
  eapply sat_conseq; [apply ok_parse_id_cred|]. intros [r cr] w HI. cbn [fst snd] in HI. repeat sy. bools. destruct (HI eq_refl) as [-> N].
  eapply sat_conseq; [apply ok_store_tokens|]. intros [] w ->. fin. exists d0. repeat split; assumption.
Qed.

(** ** AEAD *)
Lemma ok_expand_part : forall len label n c t, 0 <= n < 2 ^ 32 ->
  sat Any (expand_part len label n) (Wd c t) (fun x w' => fst x = OK ->
    exists t', w' = Wd c (t' ++ t) /\ expanded t' (prk_of c) (info label (th_of c) n) n (snd x) /\ zlen (snd x) = n).
Proof.
  intros len label n c t Hn. unfold expand_part. repeat sy. fin. cs.
  match goal with F : fits _ _ = Some _ |- _ => apply fits_some in F as [-> _] end.
  eexists. split; [trx|]. rewrite enc_info_rfc, (u32_id n) by assumption.
  match goal with H : zlen ?o <= n |- _ => rewrite (blit_zeros_read n o H); split;
    [eexists _, o; repeat split; [keyed|assumption]|apply zlen_arr_read; lia] end.
Qed.
Lemma aad_len : forall c, zlen (aad (th_of c)) <= aad_len_of c -> zlen (aad (th_of c)) = aad_len_of c.
Proof.
  intros c. assert (HZ : zlen (th_of c) = Z.max 0 (c_th_len c)).
  { unfold th_of. destruct (Z.le_gt_cases 0 (c_th_len c)); [rewrite zlen_arr_read by lia; lia|].
    unfold arr_read, take, zlen. replace (Z.to_nat (c_th_len c)) with 0%nat by lia. cbn [firstn length]. lia. }
  assert (HA : zlen (aad (th_of c)) = 11 + zlen (cbor (Bstr (th_of c)))).
  { change (aad (th_of c)) with (take 11 (aad []) ++ cbor (Bstr (th_of c)) ++ []). rewrite !zlen_app.
    change (zlen (take 11 (aad []))) with 11. change (zlen (@nil Z)) with 0. lia. }
  unfold aad_len_of. rewrite HA, zlen_bstr, HZ. change (tstr_oh 9) with 1. generalize (c_th_len c). intros n.
  destruct (Z.le_gt_cases 0 n); [|rewrite zlen_head, arg_width_cases; replace (bstr_oh n) with 1 by (unfold bstr_oh; replace (n <=? 23) with true by lia; reflexivity);
    replace (Z.max 0 n) with 0 by lia; cbn [Z.ltb Z.compare]; lia].
  rewrite Z.max_r by lia. pose proof (str_size 2 n H). destruct (Z.le_gt_cases n 65535).
  - rewrite (str_size_exact 2 n) by lia. lia.
  - lia.
Qed.
Lemma ok_key_iv_aad : forall lk li c t,
  let s := the_suite c in 0 <= cs_key s < 2 ^ 32 -> 0 <= cs_iv s < 2 ^ 32 ->
  sat Any (key_iv_aad lk li (aad_len_of c)) (Wd c t) (fun x w' => fst x = OK ->
    exists t', w' = Wd c (t' ++ t) /\
      expanded t' (prk_of c) (info lk (th_of c) (cs_key s)) (cs_key s) (fst (fst (snd x))) /\
      expanded t' (prk_of c) (info li (th_of c) (cs_iv s)) (cs_iv s) (snd (fst (snd x))) /\
      snd (snd x) = aad (th_of c)).
Proof.
  intros lk li c t s Hk Hi. unfold key_iv_aad. repeat sy.
  eapply sat_conseq; [apply ok_expand_part; assumption|]. intros [r key] w HR. cbn [fst snd] in HR. repeat sy. bools.
  destruct (HR eq_refl) as (t1 & -> & K1 & K2). repeat sy. 
  eapply sat_conseq; [apply ok_expand_part; assumption|]. intros [r iv] w HS. cbn [fst snd] in HS. repeat sy. bools.
  destruct (HS eq_refl) as (t2 & -> & I1 & I2). repeat sy. fin.
  match goal with F : fits _ _ = Some _ |- _ => apply fits_some in F as [-> F] end.
  eexists. split; [trx|]. repeat split; try lift.
  rewrite enc_enc_structure_rfc in *. apply arr_read_exact. now apply aad_len.
Qed.
Lemma ok_key_iv_aad_3 : forall kl il c t,
  let s := the_suite c in 0 <= cs_key s < 2 ^ 32 -> 0 <= cs_iv s < 2 ^ 32 ->
  sat Any (comp_key_iv_aad_3 kl il (aad_len_of c)) (Wd c t) (fun x w' => fst x = OK ->
    exists t', w' = Wd c (t' ++ t) /\
      expanded t' (prk_of c) (info K_3 (th_of c) (cs_key s)) (cs_key s) (fst (fst (snd x))) /\
      expanded t' (prk_of c) (info IV_3 (th_of c) (cs_iv s)) (cs_iv s) (snd (fst (snd x))) /\
      snd (snd x) = aad (th_of c)).
Proof. intros kl il c t s Hk Hi. unfold comp_key_iv_aad_3. repeat sy. now apply ok_key_iv_aad. Qed.
Lemma ok_key_iv_aad_4 : forall kl il c t,
  let s := the_suite c in 0 <= cs_key s < 2 ^ 32 -> 0 <= cs_iv s < 2 ^ 32 ->
  sat Any (compute_key_iv_aad_4 kl il (aad_len_of c)) (Wd c t) (fun x w' => fst x = OK ->
    exists t', w' = Wd c (t' ++ t) /\
      expanded t' (prk_of c) (info K_4 (th_of c) (cs_key s)) (cs_key s) (fst (fst (snd x))) /\
      expanded t' (prk_of c) (info IV_4 (th_of c) (cs_iv s)) (cs_iv s) (snd (fst (snd x))) /\
      snd (snd x) = aad (th_of c)).
Proof. intros kl il c t s Hk Hi. unfold compute_key_iv_aad_4. repeat sy. now apply ok_key_iv_aad. Qed.
Lemma ok_aead_encrypt : forall key iv a p n c t,
  sat Any (aead_encrypt key iv a p n) (Wd c t) (fun x w' => fst x = OK ->
    exists t', w' = Wd c (t' ++ t) /\ encrypted t' key iv a p (snd x) /\ zlen (snd x) <= n).
Proof.
  intros. unfold aead_encrypt. repeat sy. fin. eexists. split; [trx|]. split; [eexists; keyed|assumption].
Qed.
Lemma ok_aead_decrypt : forall key iv a p n c t,
  sat Any (aead_decrypt key iv a p n) (Wd c t) (fun x w' => fst x = OK ->
    exists t', w' = Wd c (t' ++ t) /\ decrypted t' key iv a p (snd x) /\ zlen (snd x) = n).
Proof.
  intros. unfold aead_decrypt. repeat sy. fin. eexists. split; [trx|]. split; [eexists; keyed|lia].
Qed.
Lemma ok_comp_ciphertext : forall key iv a p n c t,
  sat Any (comp_ciphertext key iv a p n) (Wd c t) (fun x w' => fst x = OK ->
    exists t', w' = Wd c (t' ++ t) /\ encrypted t' key iv a p (snd x) /\ zlen (snd x) <= n).
Proof. intros. unfold comp_ciphertext. sy. apply ok_aead_encrypt. Qed.
Lemma ok_decrypt_3 : forall key iv a p n c t,
  sat Any (decrypt_ciphertext_3 key iv a p n) (Wd c t) (fun x w' => fst x = OK ->
    exists t', w' = Wd c (t' ++ t) /\ decrypted t' key iv a p (snd x) /\ zlen (snd x) = n).
Proof. intros. unfold decrypt_ciphertext_3. sy. apply ok_aead_decrypt. Qed.
Lemma ok_prepare_plaintext_3 : forall m sign size w, (mc_is_ead m = false -> mc_ead m = []) ->
  sat Any (prepare_plaintext_3 m sign size) w (fun x w' => fst x = OK -> w' = w /\
    snd x = id_written m ++ cbor (Bstr sign) ++ mc_ead m).
Proof. intros. unfold prepare_plaintext_3. sy. now apply (ok_fill_plaintext m sign []). Qed.
Lemma ok_gen_msg_3 : forall ctxt size c t,
  sat Any (gen_msg_3 ctxt size) (Wd c t) (fun x w' => fst x = OK -> w' = Wd c t /\
    snd x = cbor (Bstr ctxt) /\ zlen (snd x) <= size /\ ctxt <> []).
Proof.
  intros. unfold gen_msg_3. repeat sy. fin.
  match goal with F : fits _ _ = Some _ |- _ => apply fits_some in F as [-> F] end.
  rewrite <- enc_bstr_rfc. repeat split; try lia. intros ->. now apply H0.
Qed.
End Steps3.
