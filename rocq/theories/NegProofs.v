(** Message 1: what is accepted, and negotiation. *)
From Verif Require Import Monad Api Common Msg1 Msg2 Msg3 Msg4 Exporter History Spec Rfc Wire Uses
  Conform Received Sessions Policy Logic Quiet Sym CborProofs RfcProofs CodecProofs WireProofs Steps Steps2 Steps3
  Run2 Run2p Run1 RoundTrip Fresh HistoryProofs.

Section Neg.
Context {E : env}.

(** ** Soundness of the decoder where the call succeeds *)
Lemma str_p_false : forall canon maj s z s', dec_str_p canon maj zstr0 s = (false, z, s') ->
  z = zstr0 \/ zs_ptr z = None \/ exists r, zs_ptr z = Some r /\ zlen r < zs_len z.
Proof.
  intros canon maj s z s' D. unfold dec_str_p in D. destruct (next_major s); [|injection D as <- <-; now left].
  destruct (z0 =? maj); [|injection D as <- <-; now left].
  destruct (value_extract_raw 8 s) as [[[v sh] s3]|]; [|injection D as <- <-; now left].
  destruct (canon && negb sh); [injection D as <- <-; right; now left|].
  destruct (zlen (d_rest s3) <? v) eqn:Q; [|discriminate]. injection D as <- <-. right. right.
  exists (d_rest s3). cbn [zs_ptr zs_len]. split; [reflexivity|lia].
Qed.
Lemma suites_p_sound : forall canon s su s', dec_suites_p canon s = (su, s') -> sr_ok su = true -> wf_bytes (d_rest s) ->
  exists b, ate s s' b /\ written (suites_item (if sr_choice su =? 1 then [sr_int su] else sr_list su)) b /\ wf_bytes (d_rest s').
Proof.
  intros canon s su s' H O W. assert (D : dec_suites canon s = Some (if sr_choice su =? 0 then SuList (sr_list su) else SuInt (sr_int su), s')).
  { unfold dec_suites. rewrite H. destruct su as [o c l v]. cbn [sr_ok sr_choice sr_list sr_int] in *. now rewrite O. }
  destruct (suites_sound _ _ _ _ D W) as (b & B1 & B2 & B3 & B4). exists b. split; [exact B1|]. split; [|exact B4].
  assert (C : sr_choice su = 0 \/ sr_choice su = 1).
  { clear - H. unfold dec_suites_p in H. destruct (list_start canon s) as [[o s1]|].
    - destruct (multi 2 3 _ s1) as [[[] ?] ?]; [destruct (list_end _ _)|]; injection H as <- <-; now left.
    - destruct (dec_int32 canon s) as [[v s1]|]; injection H as <- <-; [now right|now left]. }
  destruct C as [C|C]; rewrite C in *; cbn [Z.eqb Pos.eqb] in *; [|exact B2].
  destruct (sr_list su) as [|x [|y l]]; [change (zlen (@nil Z)) with 0 in B3; lia|change (zlen [x]) with 1 in B3; lia|exact B2].
Qed.
Lemma dec1_sound : forall canon m dok d rest, dec_message_1 canon m = (dok, d, rest) -> wf_bytes m -> 0 < zs_len (m1_gx d) ->
  (exists r, zs_ptr (m1_gx d) = Some r /\ zs_len (m1_gx d) <= zlen r) ->
  (m1_ci_choice d <> 1 -> 0 < zs_len (m1_ci_bstr d) -> exists r, zs_ptr (m1_ci_bstr d) = Some r /\ zs_len (m1_ci_bstr d) <= zlen r) ->
  exists r tail, zs_ptr (m1_gx d) = Some r /\ m = tail ++ drop (zlen tail) m /\
    written_seq [Num (m1_method d); suites_item (m1_suites d); Bstr (take (zs_len (m1_gx d)) r)] tail /\
    ((exists b rest, drop (zlen tail) m = b ++ rest /\ written (cid_item (m1_cid d)) b) \/ m1_cid d = CBytes []).
Proof.
  intros canon m dok d rest D W G (r & R1 & R2) C. unfold dec_message_1 in D. cbv zeta in D.
  destruct (dec_int32 canon (DS 10 m)) as [[meth s1]|] eqn:D1.
  2:{ injection D as <- <- <-. cbn in G. lia. }
  destruct (int_sound _ _ _ _ D1) as (b1 & A1 & A2 & _ & A3); [exact W|].
  destruct (dec_suites_p canon s1) as [su s2] eqn:D2. destruct (sr_ok su) eqn:SO; cbn [negb] in D.
  2:{ injection D as <- <- <-. cbn in G. lia. }
  destruct (suites_p_sound _ _ _ _ D2 SO A3) as (b2 & B1 & B2 & B3).
  destruct (dec_str_p canon 2 zstr0 s2) as [[ok gx] s3] eqn:D3. destruct ok.
  2:{ injection D as <- <- <-. cbn [m1_gx] in *. destruct (str_p_false _ _ _ _ _ D3) as [->|[X|(r' & X & Y)]]; [cbn in G; lia| |]; rewrite X in R1; [discriminate|]. injection R1 as ->. lia. }
  destruct (str_p_sound _ _ _ _ _ _ D3 B3) as (h & r' & F1 & F2 & F3 & F4 & F5 & F6 & F7).
  assert (T : written_seq [Num meth; suites_item (if sr_choice su =? 1 then [sr_int su] else sr_list su); Bstr (take (zs_len gx) r')] (b1 ++ b2 ++ (h ++ take (zs_len gx) r') ++ [])).
  { constructor; [exact A2|]. constructor; [exact B2|]. constructor; [|constructor]. constructor. rewrite zlen_take by lia. exact F4. }
  assert (M : m = (b1 ++ b2 ++ (h ++ take (zs_len gx) r') ++ []) ++ d_rest s3).
  { change m with (d_rest (DS 10 m)). unfold ate in *. rewrite A1, B1, F3, app_nil_r, <- !app_assoc. reflexivity. }
  assert (DR : drop (zlen (b1 ++ b2 ++ (h ++ take (zs_len gx) r') ++ [])) m = d_rest s3).
  { rewrite M. apply drop_app_exact. reflexivity. }
  destruct (dec_str_p canon 2 zstr0 s3) as [[ok ci] s4] eqn:D4. destruct ok.
  - destruct (dec_ead canon s4) as [[eok l] s5]. injection D as <- <- <-. cbn [m1_gx m1_method] in *.
    rewrite F1 in R1. injection R1 as <-. exists r', (b1 ++ b2 ++ (h ++ take (zs_len gx) r') ++ []).
    split; [exact F1|]. rewrite DR. split; [exact M|]. split; [exact T|]. left.
    destruct (str_p_sound _ _ _ _ _ _ D4 F7) as (h' & r2 & G1 & G2 & G3 & G4 & _).
    exists (h' ++ take (zs_len ci) r2), (d_rest s4). split; [exact G3|]. unfold m1_cid. cbn [m1_ci_choice m1_ci_bstr Z.eqb cid_item]. rewrite G1.
    constructor. rewrite zlen_take by lia. exact G4.
  - destruct (dec_int32 canon s3) as [[v s4']|] eqn:D5.
    + destruct ((-24 <=? v) && (v <=? 23)) eqn:V.
      * destruct (dec_ead canon s4') as [[eok l] s5]. injection D as <- <- <-. cbn [m1_gx m1_method] in *.
        rewrite F1 in R1. injection R1 as <-. exists r', (b1 ++ b2 ++ (h ++ take (zs_len gx) r') ++ []).
        split; [exact F1|]. rewrite DR. split; [exact M|]. split; [exact T|]. left.
        destruct (int_sound _ _ _ _ D5 F7) as (b3 & G1 & G2 & _). exists b3, (d_rest s4'). split; [exact G1|exact G2].
      * injection D as <- <- <-. cbn [m1_gx m1_method] in *.
        rewrite F1 in R1. injection R1 as <-. exists r', (b1 ++ b2 ++ (h ++ take (zs_len gx) r') ++ []).
        split; [exact F1|]. rewrite DR. split; [exact M|]. split; [exact T|]. right. reflexivity.
    + injection D as <- <- <-. cbn [m1_gx m1_method m1_ci_choice m1_ci_bstr] in *.
      rewrite F1 in R1. injection R1 as <-. exists r', (b1 ++ b2 ++ (h ++ take (zs_len gx) r') ++ []).
      split; [exact F1|]. rewrite DR. split; [exact M|]. split; [exact T|]. right. unfold m1_cid. cbn [m1_ci_choice m1_ci_bstr Z.eqb].
      destruct (str_p_false _ _ _ _ _ D4) as [->|[X|(r2 & X & Y)]]; [reflexivity|now rewrite X|].
      destruct (Z.le_gt_cases (zs_len ci) 0) as [L|L].
      * pose proof (zlen_nonneg _ r2). lia.
      * destruct C as (r3 & C1 & C2); [discriminate|lia|]. rewrite C1 in X. injection X as ->. lia.
Qed.
Lemma message_1_accepted : forall nn m c t c' t', message_1_process nn m (Wd c t) = Ret OK (Wd c' t') ->
  0 < cs_ecc (my_suite c) -> wf_bytes m ->
  exists suites, zlen (peer_of c') = cs_ecc (my_suite c) /\ last suites 0 = cs_value (my_suite c) /\
    In (c_chosen_method c') (method_values c) /\ c_csuite_len c <> 0 /\
    (carries m [Num (c_chosen_method c'); suites_item suites; Bstr (peer_of c'); cid_item (cid_rfc (c_peer_cid c'))] \/
     carries m [Num (c_chosen_method c'); suites_item suites; Bstr (peer_of c')] /\ cid_rfc (c_peer_cid c') = CBytes []) /\
    c_peer_csuite_len c' = zlen suites.
Proof.
  intros nn m c t c' t' H HE W. 
  assert (HE0 : 0 <= cs_ecc (csuite_at c (c_csuite_len c - 1))) by (apply Z.lt_le_incl; exact HE).
  pose proof (sat_run _ _ _ _ _ _ _ (run_process_1 nn m c t HE0) H eq_refl) as R.
  destruct (dec_message_1 cf_canon m) as [[dok d] rest] eqn:D. cbn [fst snd w_ctx w_tr] in R.
  destruct R as (e & gx & th & T & A & B & _ & F & G & P & _ & _ & Q & _ & L & _). change (csuite_at c (c_csuite_len c - 1)) with (my_suite c) in *.
  destruct A as (A1 & A2 & A3 & A4 & A5 & A6 & A7 & A8 & A9 & _). change (csuite_at c (c_csuite_len c - 1)) with (my_suite c) in *. 
  exists (m1_suites d). destruct (A7 HE) as (r & R1 & R2 & R3).
  split; [rewrite P; exact A5|]. split; [exact A4|]. split; [now rewrite F|]. split; [exact A2|]. split; [|exact L].
  destruct (dec1_sound _ _ _ _ _ D W) as (r' & b & S1 & S2 & S3 & S4).
  { rewrite A6. exact HE. }
  { exists r. split; [exact R1|]. rewrite A6. exact R2. }
  { exact A9. }
  rewrite S1 in R1. injection R1 as ->. rewrite F, Q, P, R3. rewrite A6 in S3.
  destruct S4 as [(b4 & rest4 & S5 & S6)|S4].
  - left. exists (b ++ b4 ++ []), rest4. split; [rewrite app_nil_r, <- app_assoc, <- S5; exact S2|].
    apply (seq_app _ _ S3 [cid_item (m1_cid d)]). constructor; [exact S6|constructor].
  - right. split; [|exact S4]. exists b, (drop (zlen b) m). split; assumption.
Qed.

(** ** A well-formed prefix is decoded whatever follows *)
Lemma dec1_prefix : forall canon method suites r, int32 method -> 1 <= zlen suites <= 3 -> Forall int32 suites ->
  let d := snd (fst (dec_message_1 canon (cbor_seq [Num method; suites_item suites] ++ r))) in
  m1_method d = method /\ m1_suites d = suites /\ (m1_su_choice d = 1 \/ m1_su_choice d = 0).
Proof.
  intros canon method suites r Hm Hs1 Hs2. unfold cbor_seq. cbn [flat_map]. rewrite app_nil_r, <- app_assoc. unfold dec_message_1. cbv zeta.
  rewrite int_dec by (assumption || lia).
  rewrite (suites_p_rt canon (suites_v suites) _ _ _ (suites_v_ok _ Hs1 Hs2) (suites_v_enc _ Hs1)) by lia.
  set (su := match suites_v suites with SuInt v => SR true 1 [] v | SuList l => SR true 0 l 0 end).
  assert (SU : sr_ok su = true /\ (if sr_choice su =? 1 then [sr_int su] else sr_list su) = suites /\ (sr_choice su = 1 \/ sr_choice su = 0)).
  { subst su. destruct suites as [|x [|y s]]; [cbn in Hs1; lia|cbn; auto..]. }
  clearbody su. destruct SU as (S1 & S2 & S3). rewrite S1. cbn [negb].
  destruct (dec_str_p canon 2 zstr0 _) as [[[] gx] s3].
  2:{ cbn [fst snd m1_method m1_su_choice]. unfold m1_suites. cbn [m1_su_choice m1_su_int m1_su_list]. auto. }
  destruct (dec_str_p canon 2 zstr0 s3) as [[[] ci] s4].
  { destruct (dec_ead canon s4) as [[? ?] ?]. cbn [fst snd m1_method m1_su_choice]. unfold m1_suites. cbn [m1_su_choice m1_su_int m1_su_list]. auto. }
  destruct (dec_int32 canon s3) as [[v s5]|].
  - destruct (_ && _); [destruct (dec_ead canon s5) as [[? ?] ?]|]; cbn [fst snd m1_method m1_su_choice]; unfold m1_suites; cbn [m1_su_choice m1_su_int m1_su_list]; auto.
  - cbn [fst snd m1_method m1_su_choice]. unfold m1_suites. cbn [m1_su_choice m1_su_int m1_su_list]. auto.
Qed.
Lemma run_wrong_suite : forall c t method suites r, fresh c -> c_csuite_len c <> 0 ->
  int32 method -> In method (method_values c) ->
  1 <= zlen suites <= 3 -> zlen suites <= cf_max_suites -> Forall int32 suites -> last suites 0 <> cs_value (my_suite c) ->
  sat Any (message_1_process true (cbor_seq [Num method; suites_item suites] ++ r)) (Wd c t) (fun y w' =>
    y = E_MSG1 /\ w_tr w' = t /\ c_error (w_ctx w') = EC_WRONG_SUITE /\ c_status (w_ctx w') = SM_ABORTED /\
    c_is_init (w_ctx w') = true /\ c_csuites (w_ctx w') = c_csuites c /\ c_csuite_len (w_ctx w') = c_csuite_len c /\
    c_peer_csuite_len (w_ctx w') = zlen suites /\ take (zlen suites) (c_peer_csuites (w_ctx w')) = suites).
Proof.
  intros c t method suites r (F1 & F2 & F3 & F4 & F5 & F6 & _) HL Hm HM Hs1 Hs3 Hs2 HW.
  pose proof (dec1_prefix cf_canon method suites r Hm Hs1 Hs2) as D.
  assert (NE : zlen (cbor_seq [Num method; suites_item suites] ++ r) =? 0 = false).
  { unfold cbor_seq. cbn [flat_map]. rewrite <- app_assoc. rewrite <- enc_int_rfc. apply enc_nonempty. }
  set (msg := cbor_seq _ ++ r) in *. clearbody msg.
  unfold message_1_process, enter. rewrite NE. cbn [negb orb]. apply sat_bind, sat_getc. cs.
  replace (in_state SM_START TH_INVALID PRK_INVALID c) with true by (unfold in_state; now rewrite F3, F4, F5).
  cbn [negb]. apply sat_bind, sat_modify. cs. destruct (dec_message_1 cf_canon msg) as [[dok d] rest]. cbn [fst snd] in D. cs.
  destruct D as (D1 & D2 & D3).
  assert (X : negb dok && (zlen msg <=? (if dok then zlen msg - zlen rest else 0)) = false).
  { destruct dok; [reflexivity|]. cbn [negb andb]. pose proof (zlen_nonneg _ msg). lia. }
  rewrite X. clear X. replace (c_csuite_len c =? 0) with false by lia.
  apply sat_bind, sat_modify. cs. apply sat_bind, sy_get_suite. intros _. cs.
  replace (existsb (fun m => m =? m1_method d) (method_values c)) with true.
  2:{ symmetry. apply existsb_exists. exists method. split; [exact HM|]. rewrite D1. apply Z.eqb_refl. }
  cbn [negb]. apply sat_bind, sat_modify. cs. apply sat_bind.
  change (the_suite _) with (my_suite c).
  unfold m1_suites in D2. destruct D3 as [D3|D3]; rewrite D3 in *; cbn [Z.eqb Pos.eqb] in *.
  - apply sat_bind, sy_check. intros _. apply sat_bind, sat_modify. cs. subst suites. cbn [last] in HW.
    replace (cs_value _ =? m1_su_int d) with false by (symmetry; apply Z.eqb_neq; intro Y; apply HW; symmetry; exact Y).
    cbn [negb]. apply sat_bind, sat_modify. cs. apply sat_ret. cbn [Z.eqb negb]. apply sat_ret. cs. rewrite F2. repeat split; assumption.
  - rewrite D2. replace (zlen suites =? 0) with false by lia. replace (cf_max_suites <? zlen suites) with false by lia.
    apply sat_bind, sat_modify. cs. 
    replace (cs_value _ =? last suites 0) with false by (symmetry; apply Z.eqb_neq; intro Y; apply HW; symmetry; exact Y).
    cbn [negb]. apply sat_bind, sat_modify. cs. apply sat_ret. cbn [Z.eqb negb]. apply sat_ret. cs. repeat split; try assumption. apply take_blit.
Qed.
Lemma nth_take_seq : forall A (d : A) k l, (k <= length l)%nat -> map (fun i => nth i l d) (seq 0 k) = firstn k l.
Proof.
  intros A d k l H. revert l H. induction k as [|k IH]; intros l H; [reflexivity|].
  destruct l as [|x l]; [cbn in H; lia|]. cbn [seq map firstn nth]. f_equal. rewrite <- seq_shift, map_map. cbn [nth]. apply IH. cbn in H. lia.
Qed.
Lemma read_suites : forall l n, zlen (take n l) = n -> map (fun i => nth i l 0) (seq 0 (Z.to_nat n)) = take n l.
Proof. intros l n H. apply nth_take_seq. unfold take, zlen in *. pose proof (firstn_le_length (Z.to_nat n) l). rewrite firstn_length in H. lia. Qed.
Lemma wrong_suite_reported : forall c t method suites r a b x w, configured c -> c_csuite_len c <> 0 ->
  int32 method -> In method (method_values c) ->
  1 <= zlen suites <= 3 -> zlen suites <= cf_max_suites -> Forall int32 suites -> last suites 0 <> cs_value (my_suite c) ->
  c_csuite_len c <= a -> zlen suites <= b ->
  runs [AM1Process true (cbor_seq [Num method; suites_item suites] ++ r); AErrCode true; AErrSuites true a b] (Wd c t) = Ret x w ->
  map snd x = [(E_MSG1, ONone); (OK, OCode (Some EC_WRONG_SUITE));
               (OK, OSuites (Some (suite_values c)) (Some suites))].
Proof.
  intros c t method suites r a b x w HC HL Hm HM Hs1 Hs3 Hs2 HW Ha Hb H. apply configured_fresh in HC.
  assert (LP : 0 <= c_csuite_len c) by apply HC.
  apply runs_cons in H as (r1 & w1 & x1 & A1 & H & ->). apply runs_cons in H as (r2 & w2 & x2 & A2 & H & ->).
  apply runs_cons in H as (r3 & w3 & x3 & A3 & H & ->). apply runs_nil in H as [-> ->].
  cbn [do_api] in A1. unfold no_out in A1. apply bind_inv in A1 as (y & w' & A1 & B1). injection B1 as <- <-.
  pose proof (sat_run _ _ _ _ _ _ _ (run_wrong_suite c t method suites r HC HL Hm HM Hs1 Hs3 Hs2 HW) A1) as (-> & _ & C1 & C2 & C3 & C4 & C5 & C6 & C7).
  cbn [do_api] in A2, A3. apply bind_inv in A2 as (c1 & w4 & A2 & B2). injection A2 as <- <-.
  unfold error_get_code in B2. rewrite C3, C1 in B2. cbn [negb] in B2. injection B2 as <- <-.
  apply bind_inv in A3 as (c1 & w4 & A3 & B3). injection A3 as <- <-.
  unfold error_get_cipher_suites in B3. rewrite C3, C1, C6, C5, C4 in B3. cbn [negb orb] in B3.
  replace ((a =? 0) || (b =? 0)) with false in B3 by (clear - HL LP Ha Hs1 Hb; lia). cbn [Z.eqb] in B3. rewrite Z.eqb_refl in B3. cbn [negb] in B3.
  replace (a <? c_csuite_len c) with false in B3 by lia. replace (b <? zlen suites) with false in B3 by lia.
  injection B3 as <- <-. cbn [map snd]. rewrite read_suites; [rewrite C7; reflexivity|now rewrite C7].
Qed.

(** ** The responder's last suite is accepted *)
Lemma dec1_ci : forall canon meth suites gx ci l,
  int32 meth -> 1 <= zlen suites <= 3 -> Forall int32 suites -> zlen gx < 2 ^ 64 -> cid_ok ci ->
  let d := snd (fst (dec_message_1 canon (cbor_seq (message_1_items meth suites gx ci l)))) in
  match ci with
  | CNum v => m1_ci_choice d = 1 /\ m1_ci_int d = v
  | CBytes b => m1_ci_choice d = 0 /\ zs_len (m1_ci_bstr d) = zlen b
  end.
Proof.
  intros canon meth suites gx ci l Hm Hs1 Hs2 Hg Hc.
  unfold message_1_items, cbor_seq. cbn [app flat_map]. unfold dec_message_1. cbv zeta.
  rewrite int_dec by (assumption || lia).
  rewrite (suites_p_rt canon (suites_v suites) _ _ _ (suites_v_ok _ Hs1 Hs2) (suites_v_enc _ Hs1)) by lia.
  set (su := match suites_v suites with SuInt v => SR true 1 [] v | SuList l => SR true 0 l 0 end).
  assert (SU : sr_ok su = true). { subst su. destruct suites as [|x [|y s]]; [cbn in Hs1; lia|cbn; auto..]. }
  clearbody su. rewrite SU. cbn [negb]. rewrite str_p_dec by (assumption || lia).
  destruct ci as [v|b]; cbn [cid_item cid_ok] in *.
  - rewrite num_not_str by (unfold int32; lia). rewrite int_dec by (unfold int32; lia).
    replace ((-24 <=? v) && (v <=? 23)) with true by lia. destruct (dec_ead canon _) as [[? ?] ?]. split; reflexivity.
  - rewrite str_p_dec by (assumption || lia). destruct (dec_ead canon _) as [[? ?] ?]. split; reflexivity.
Qed.
Lemma run_accept : forall c t method suites gx ci l, fresh c -> c_csuite_len c <> 0 ->
  int32 method -> In method (method_values c) ->
  1 <= zlen suites <= 3 -> zlen suites <= cf_max_suites -> Forall int32 suites -> last suites 0 = cs_value (my_suite c) ->
  zlen gx = cs_ecc (my_suite c) -> zlen gx < 2 ^ 64 -> cid_ok ci -> match ci with CBytes b => zlen b <= cf_max_cid | _ => True end ->
  Forall ead_fits l -> zlen l <= 3 -> zlen l <= cf_max_ead ->
  sat Any (message_1_process true (cbor_seq (message_1_items method suites gx ci l))) (Wd c t) (fun y w' =>
    exists e, w_tr w' = e ++ t /\
    (passes e -> y = OK /\ csuite_at (w_ctx w') (c_csuite_idx (w_ctx w')) = my_suite c /\ c_status (w_ctx w') = SM_RECEIVED_M1)).
Proof.
  intros c t method suites gx ci l (F1 & F2 & F3 & F4 & F5 & F6 & _) HL Hm HM Hs1 Hs3 Hs2 HW HG HG2 HC1 HC2 HE1 HE2 HE3.
  destruct (message_1_rt cf_canon method suites gx ci l Hm Hs1 Hs2 HG2 HC1 HE1 HE2) as (d & D & D1 & D2 & D4 & (gr & D5) & D6 & D7 & D8 & D9).
  pose proof (dec1_ci cf_canon method suites gx ci l Hm Hs1 Hs2 HG2 HC1) as DC.
  assert (DS : m1_su_choice d = 1 \/ m1_su_choice d = 0).
  { destruct (dec1_prefix cf_canon method suites (cbor_seq (Bstr gx :: cid_item ci :: flat_map ead_items l)) Hm Hs1 Hs2) as (_ & _ & X).
    rewrite <- cbor_seq_app in X. cbn [app] in X. change (Num method :: _) with (message_1_items method suites gx ci l) in X. rewrite D in X. exact X. }
  rewrite D in DC. cbn [fst snd] in DC.
  assert (DL : zlen (m1_ead d) <= cf_max_ead) by (rewrite <- D7 in HE3; unfold zlen in *; now rewrite map_length in HE3).
  assert (NE : zlen (cbor_seq (message_1_items method suites gx ci l)) =? 0 = false).
  { unfold cbor_seq, message_1_items. cbn [flat_map app]. rewrite <- enc_int_rfc. apply enc_nonempty. }
  set (msg := cbor_seq _) in *. clearbody msg.
  match goal with |- sat _ _ _ ?Q => set (Post := Q) end.
  unfold message_1_process, enter. rewrite NE. cbn [negb orb]. apply sat_bind, sat_getc. cs.
  replace (in_state SM_START TH_INVALID PRK_INVALID c) with true by (unfold in_state; now rewrite F3, F4, F5).
  cbn [negb]. apply sat_bind, sat_modify. cs. rewrite D. cbn [negb andb]. replace (c_csuite_len c =? 0) with false by lia.
  apply sat_bind, sat_modify. cs. apply sat_bind, sy_get_suite. intros _. cs.
  replace (existsb (fun m => m =? m1_method d) (method_values c)) with true.
  2:{ symmetry. apply existsb_exists. exists method. split; [exact HM|]. rewrite D1. apply Z.eqb_refl. }
  cbn [negb]. apply sat_bind, sat_modify. cs. apply sat_bind.
  change (the_suite _) with (my_suite c) in |- *.
  match goal with |- sat _ _ (Wd ?c1 ?t1) _ => apply sat_conseq with (P := fun r w' => r = OK /\
    exists ps, w' = Wd (set_peer_csuite_len (zlen suites) (set_peer_csuites ps c1)) t1) end.
  { unfold m1_suites in D2. destruct DS as [D3|D3]; rewrite D3 in *; cbn [Z.eqb Pos.eqb] in *.
    - apply sat_bind, sy_check. intros _. apply sat_bind, sat_modify. cs. subst suites. cbn [last] in HW. rewrite <- HW, Z.eqb_refl. cbn [negb].
      apply sat_ret. split; [reflexivity|]. eexists. reflexivity.
    - rewrite D2. replace (zlen suites =? 0) with false by lia. replace (cf_max_suites <? zlen suites) with false by lia.
      apply sat_bind, sat_modify. cs. rewrite <- HW, Z.eqb_refl. cbn [negb]. apply sat_ret. split; [reflexivity|]. eexists. reflexivity. }
  intros r w (-> & ps & ->). cbn [Z.eqb OK negb]. change (OK =? OK) with true. cbn [negb]. cs. rewrite D4, HG, Z.eqb_refl. cbn [negb].
  apply sat_bind, sat_modify. cs. apply sat_bind.
  match goal with |- sat _ _ (Wd ?c1 ?t1) _ => apply sat_conseq with (P := fun _ w' => w' = Wd c1 t1) end; [now apply ok_rd_ptr|].
  intros g w ->. apply sat_bind, sy_put_dh_peer. intros _. cs. apply sat_bind.
  match goal with |- sat _ _ (Wd ?c1 ?t1) _ => apply sat_conseq with (P := fun r w' => r = OK /\
    exists pc, w' = Wd (set_peer_cid pc c1) t1) end.
  { destruct ci as [v|b]; destruct DC as [DC DC2]; rewrite DC; cbn [Z.eqb Pos.eqb].
    - rewrite DC2. cbn [cid_ok] in HC1. replace ((v <? -24) || (23 <? v)) with false by lia. apply sat_bind, sat_modify. apply sat_ret. cs.
      split; [reflexivity|]. eexists. reflexivity.
    - rewrite DC2. replace (cf_max_cid + 1 <? zlen b) with false by lia. apply sat_bind.
      match goal with |- sat _ _ (Wd ?c1 ?t1) _ => apply sat_conseq with (P := fun _ w' => w' = Wd c1 t1) end; [now apply ok_rd_ptr|].
      intros x w ->. apply sat_bind, sat_modify. apply sat_ret. cs. split; [reflexivity|]. eexists. reflexivity. }
  intros r w (-> & pc & ->). cbn [Z.eqb OK negb]. change (OK =? OK) with true. cbn [negb]. cs. apply sat_bind.
  match goal with |- sat _ _ (Wd ?c1 ?t1) _ => apply sat_conseq with (P := fun r w' => 
    exists te toks, w' = Wd (set_tokens toks c1) (te ++ t1) /\ (passes te -> r = OK)) end.
  { destruct (if m1_ead_present d then f_process (c_ead c) else None) as [f|].
    - replace (cf_max_ead <? zlen (m1_ead d)) with false by lia. do 4 (sy; cs). apply sat_bind, sat_modify. cs.
      destruct (r =? OK) eqn:K; cbn [negb]; apply sat_ret; eexists [_], []; (split; [now rewrite tokens_twice|]); intros [X _]; [reflexivity|].
      apply Z.eqb_neq in K. contradiction K. eapply X. now left.
    - apply sat_ret. exists [], (c_tokens c). cs. split; [reflexivity|now intros]. }
  intros r w (te & toks & -> & HR). cs. destruct (r =? OK) eqn:K; cbn [negb].
  2:{ apply sat_ret. subst Post. cbv beta. cs. exists te. split; [reflexivity|]. intros P. apply Z.eqb_neq in K. now destruct K; apply HR. }
  apply sat_bind. eapply sat_conseq; [apply ok_hash_into_th|]. intros [r' n] w (th & -> & Hn). cs in Hn. subst n. cs.
  subst Post. destruct (negb (r' =? OK) || negb (cs_hash (my_suite c) =? zlen th)) eqn:K2.
  - apply sat_ret. eexists. cs. split; [trx|]. intros [_ P]. exfalso.
    destruct (P msg (cs_hash (my_suite c)) r' th) as [-> Q]; [now left|]. rewrite Q, !Z.eqb_refl in K2. discriminate.
  - apply sat_bind, sat_modify, sat_ret. eexists. cs. split; [trx|]. intros _. repeat split.
Qed.
Lemma last_suite_accepted : forall c t method suites gx ci l y w' e, configured c -> c_csuite_len c <> 0 ->
  int32 method -> In method (method_values c) ->
  1 <= zlen suites <= 3 -> zlen suites <= cf_max_suites -> Forall int32 suites -> last suites 0 = cs_value (my_suite c) ->
  zlen gx = cs_ecc (my_suite c) -> zlen gx < 2 ^ 64 -> cid_ok ci -> match ci with CBytes b => zlen b <= cf_max_cid | _ => True end ->
  Forall ead_fits l -> zlen l <= 3 -> zlen l <= cf_max_ead ->
  message_1_process true (cbor_seq (message_1_items method suites gx ci l)) (Wd c t) = Ret y w' ->
  w_tr w' = e ++ t -> passes e -> y = OK /\ the_suite (w_ctx w') = my_suite c /\ c_status (w_ctx w') = SM_RECEIVED_M1.
Proof.
  intros c t method suites gx ci l y w' e HF HL Hm HM Hs1 Hs3 Hs2 HW HG HG2 HC1 HC2 HE1 HE2 HE3 R T P.
  pose proof (sat_run _ _ _ _ _ _ _ (run_accept c t method suites gx ci l (configured_fresh _ HF) HL Hm HM Hs1 Hs3 Hs2 HW HG HG2 HC1 HC2 HE1 HE2 HE3) R) as (e' & T' & Q).
  rewrite T in T'. apply app_inv_tail in T' as <-. now apply Q.
Qed.
End Neg.
