(** The negotiation theorems in the vocabulary of the application. *)
From Verif Require Import Monad Api Common Msg1 Msg2 Msg3 Msg4 Exporter History Spec Rfc Wire Uses
  Conform Received Sessions Policy Facts Logic Quiet Sym CborProofs RfcProofs CodecProofs WireProofs Steps Steps2 Steps3
  Run2 Run2p Run1 RoundTrip Fresh HistoryProofs NegProofs NegProofs2 Claims3.

Section Neg3.
Context {E : env}.
Definition methods_in (c : ctx) : Prop := 0 <= c_method_len c <= zlen (c_methods c).
Lemma methods_step : forall a w r w', is_config a = true -> methods_in (w_ctx w) -> do_api a w = Ret r w' -> methods_in (w_ctx w').
Proof.
  intros a [c t] r w' HC HF H. cbn [w_ctx] in HF.
  destruct a; try discriminate HC; cbn [do_api] in H; rewrite cfg_run in H; cbn [w_ctx w_tr] in H;
    injection H as _ <-; cbn [w_ctx];
    unfold set_methods_call, set_cipher_suites_call, set_connection_id_call, set_user_context_call, bind_ead_call, bind_keys_call,
      bind_crypto_call, bind_credentials_call;
    match goal with |- methods_in (snd (match ?x with _ => _ end)) => destruct x end;
    repeat match goal with |- methods_in (snd (if ?b then _ else _)) => destruct b eqn:? end; try exact HF.
  unfold methods_in. cbn. split; [apply zlen_nonneg|apply zlen_blit].
Qed.
Lemma methods_runs : forall l w rs w', Forall (fun a => is_config a = true) l -> methods_in (w_ctx w) -> runs l w = Ret rs w' -> methods_in (w_ctx w').
Proof.
  induction l as [|a l IH]; intros w rs w' HC HF H.
  - apply runs_nil in H as [_ ->]. exact HF.
  - inversion HC; subst. apply runs_cons in H as (r & w1 & rs' & A & B & _).
    apply (IH w1 rs' w'); [assumption| |assumption]. eapply methods_step; eauto.
Qed.
Lemma configured_methods : forall c, configured c -> methods_in c.
Proof.
  intros c (c0 & l & rs & t & HC & H). apply runs_cons in H as (r & w1 & rs' & A & B & _).
  rewrite init_run in A. injection A as _ <-. apply (methods_runs l _ _ (Wd c t)) in B; [exact B|assumption|].
  unfold methods_in. cbn. lia.
Qed.
Lemma method_values_take : forall c, methods_in c -> method_values c = my_methods c.
Proof.
  intros c H. unfold method_values, my_methods, take. apply nth_take_seq. unfold methods_in, zlen in H. lia.
Qed.
Lemma nth_firstn : forall A (d : A) n i l, (i < n)%nat -> nth i (firstn n l) d = nth i l d.
Proof. intros A d n. induction n as [|n IH]; intros [|i] [|x l] H; try reflexivity; try lia. cbn [firstn nth]. apply IH. lia. Qed.
Lemma my_suite_in : forall c, fresh c -> c_csuite_len c <> 0 -> In (my_suite c) (my_suites c).
Proof.
  intros c (_ & _ & _ & _ & _ & _ & _ & _ & F & _) H. unfold my_suite, my_suites, take.
  rewrite <- (nth_firstn _ _ (Z.to_nat (c_csuite_len c))) by lia.
  apply nth_In. rewrite firstn_length. unfold zlen in F. lia.
Qed.
Lemma neg_accepted : forall nn m c t c' t', configured c ->
  message_1_process nn m (Wd c t) = Ret OK (Wd c' t') -> 0 < cs_ecc (my_suite c) -> wf_bytes m ->
  exists suites, carries m [Num (c_chosen_method c'); suites_item suites; Bstr (peer_of c')] /\
    In (c_chosen_method c') (my_methods c) /\ In (the_suite c') (my_suites c) /\
    last suites 0 = cs_value (the_suite c').
Proof.
  intros nn m c t c' t' HC H HE W.
  assert (HE0 : 0 <= cs_ecc (csuite_at c (c_csuite_len c - 1))) by (apply Z.lt_le_incl; exact HE).
  pose proof (sat_run _ _ _ _ _ _ _ (run_process_1 nn m c t HE0) H eq_refl) as R. cbv zeta in R. cbn [w_ctx w_tr] in R.
  destruct R as (_ & _ & _ & _ & _ & (K & _) & _). change (csuite_at c (c_csuite_len c - 1)) with (my_suite c) in K.
  destruct (message_1_accepted _ _ _ _ _ _ H HE W) as (suites & A1 & A2 & A3 & A4 & A5 & A6).
  exists suites. rewrite K. split; [|split; [|split; [|exact A2]]].
  - destruct A5 as [(a & b & -> & A5)|[A5 _]]; [|exact A5]. 
    apply NegProofs2.seq_inv in A5 as (a1 & b1 & -> & W1 & A5). apply NegProofs2.seq_inv in A5 as (a2 & b2 & -> & W2 & A5).
    apply NegProofs2.seq_inv in A5 as (a3 & b3 & -> & W3 & A5). exists (a1 ++ a2 ++ a3 ++ []), (b3 ++ b).
    split; [now rewrite <- !app_assoc|]. repeat (constructor; [assumption|]). constructor.
  - rewrite <- method_values_take by now apply configured_methods. exact A3.
  - apply my_suite_in; [now apply configured_fresh|exact A4].
Qed.
(** A message is refused when the selected suite is not the responder's last one, with both
    lists reported. *)
Lemma neg_mismatch : forall c t method suites r a b x w, configured c -> my_suites c <> [] ->
  int32 method -> In method (my_methods c) ->
  1 <= zlen suites <= 3 -> zlen suites <= cf_max_suites -> Forall int32 suites -> last suites 0 <> cs_value (my_suite c) ->
  zlen (my_suites c) <= a -> zlen suites <= b ->
  runs [AM1Process true (cbor_seq [Num method; suites_item suites] ++ r); AErrCode true; AErrSuites true a b] (Wd c t) = Ret x w ->
  map snd x = [(E_MSG1, ONone); (OK, OCode (Some EC_WRONG_SUITE));
               (OK, OSuites (Some (map cs_value (my_suites c))) (Some suites))].
Proof.
  intros c t method suites r a b x w HC HS Hm HM H1 H2 H3 HW Ha Hb H.
  assert (F : 0 <= c_csuite_len c <= zlen (c_csuites c)) by (apply configured_fresh in HC; apply HC).
  unfold my_suites. rewrite <- suite_values_take by exact F. rewrite <- method_values_take in HM by now apply configured_methods.
  eapply wrong_suite_reported; eauto.
  - intro Z0. apply HS. unfold my_suites. rewrite Z0. reflexivity.
  - unfold my_suites in Ha. unfold take, zlen in *. rewrite firstn_length in Ha. lia.
Qed.
Lemma neg_match : forall c t method suites gx ci l y w' e, configured c -> my_suites c <> [] ->
  int32 method -> In method (my_methods c) ->
  1 <= zlen suites <= 3 -> zlen suites <= cf_max_suites -> Forall int32 suites -> last suites 0 = cs_value (my_suite c) ->
  zlen gx = cs_ecc (my_suite c) -> zlen gx < 2 ^ 64 -> cid_within cf_max_cid ci -> cf_max_cid < 2 ^ 64 ->
  Forall ead_ok l -> zlen l <= 3 -> zlen l <= cf_max_ead ->
  message_1_process true (cbor_seq (message_1_items method suites gx ci l)) (Wd c t) = Ret y w' ->
  w_tr w' = e ++ t -> passes e -> y = OK /\ the_suite (w_ctx w') = my_suite c /\ c_status (w_ctx w') = SM_RECEIVED_M1.
Proof.
  intros c t method suites gx ci l y w' e HC HS Hm HM H1 H2 H3 HW HG HG2 HI HI2 HE HL HL2 H T P.
  rewrite <- method_values_take in HM by now apply configured_methods.
  apply (last_suite_accepted c t method suites gx ci l y w' e); try assumption.
  - intro Z0. apply HS. unfold my_suites. rewrite Z0. reflexivity.
  - destruct ci; cbn [cid_ok cid_within] in *; [exact HI|lia].
  - destruct ci; [exact I|exact HI].
Qed.
Lemma message_1_shape : forall nn m c t c' t',
  message_1_process nn m (Wd c t) = Ret OK (Wd c' t') -> 0 < cs_ecc (my_suite c) -> wf_bytes m ->
  exists suites, zlen (peer_of c') = cs_ecc (my_suite c) /\ 
    (carries m [Num (c_chosen_method c'); suites_item suites; Bstr (peer_of c'); cid_item (cid_rfc (c_peer_cid c'))] \/
     carries m [Num (c_chosen_method c'); suites_item suites; Bstr (peer_of c')] /\ cid_rfc (c_peer_cid c') = CBytes []) /\
    c_peer_csuite_len c' = zlen suites.
Proof.
  intros nn m c t c' t' H HE W. destruct (message_1_accepted _ _ _ _ _ _ H HE W) as (suites & A1 & _ & _ & _ & A5 & A6).
  exists suites. split; [exact A1|]. split; assumption.
Qed.
Lemma neg_unsupported : forall c t method suites r a b x w, configured c -> my_suites c <> [] ->
  int32 method -> In method (my_methods c) ->
  1 <= zlen suites <= 3 -> zlen suites <= cf_max_suites -> Forall int32 suites ->
  ~ In (last suites 0) (map cs_value (my_suites c)) ->
  zlen (my_suites c) <= a -> zlen suites <= b ->
  runs [AM1Process true (cbor_seq [Num method; suites_item suites] ++ r); AErrCode true; AErrSuites true a b] (Wd c t) = Ret x w ->
  map snd x = [(E_MSG1, ONone); (OK, OCode (Some EC_WRONG_SUITE));
               (OK, OSuites (Some (map cs_value (my_suites c))) (Some suites))].
Proof.
  intros c t method suites r a b x w HC HS Hm HM H1 H2 H3 HW Ha Hb H. eapply neg_mismatch; eauto.
  intro X. apply HW. rewrite X. apply in_map. apply my_suite_in; [now apply configured_fresh|].
  intro Z0. apply HS. unfold my_suites. rewrite Z0. reflexivity.
Qed.
Lemma neg_method : forall c t method suites r y w, configured c -> my_suites c <> [] ->
  int32 method -> ~ In method (my_methods c) -> 1 <= zlen suites <= 3 -> Forall int32 suites ->
  message_1_process true (cbor_seq [Num method; suites_item suites] ++ r) (Wd c t) = Ret y w ->
  y <> OK /\ c_status (w_ctx w) = SM_ABORTED.
Proof.
  intros c t method suites r y w HC HS Hm HM H1 H3 H. rewrite <- method_values_take in HM by now apply configured_methods.
  assert (HL : c_csuite_len c <> 0) by (intro Z0; apply HS; unfold my_suites; rewrite Z0; reflexivity).
  destruct (configured_fresh _ HC) as (F1 & F2 & F3 & F4 & F5 & F6 & _).
  refine (sat_run Any _ _ _ (fun y w => y <> OK /\ c_status (w_ctx w) = SM_ABORTED) _ _ _ H). clear y w H.
  pose proof (dec1_prefix cf_canon method suites r Hm H1 H3) as D.
  assert (NE : zlen (cbor_seq [Num method; suites_item suites] ++ r) =? 0 = false).
  { unfold cbor_seq. cbn [flat_map]. rewrite <- app_assoc. rewrite <- enc_int_rfc. apply enc_nonempty. }
  set (msg := cbor_seq _ ++ r) in *. clearbody msg.
  unfold message_1_process, enter. rewrite NE. cbn [negb orb]. apply sat_bind, sat_getc. cs.
  replace (in_state SM_START TH_INVALID PRK_INVALID c) with true by (unfold in_state; now rewrite F3, F4, F5).
  cbn [negb]. apply sat_bind, sat_modify. cs. destruct (dec_message_1 cf_canon msg) as [[dok d] rest]. cbn [fst snd] in D. cs.
  destruct D as (D1 & D2 & D3).
  assert (X : negb dok && (zlen msg <=? (if dok then zlen msg - zlen rest else 0)) = false).
  { destruct dok; [reflexivity|]. cbn [negb andb]. pose proof (zlen_nonneg _ msg). lia. }
  rewrite X. clear X. replace (c_csuite_len c =? 0) with false by lia.
  apply sat_bind, sat_modify. cs. apply sat_bind, sy_get_suite. intros _. cs.
  replace (existsb (fun m => m =? m1_method d) (method_values c)) with false.
  2:{ symmetry. apply not_true_is_false. rewrite existsb_exists. intros (z & Z1 & Z2). apply Z.eqb_eq in Z2. subst z. apply HM. now rewrite <- D1. }
  cbn [negb]. apply sat_ret. cs. split; [discriminate|reflexivity].
Qed.
End Neg3.
