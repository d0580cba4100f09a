(** Properties C08, C27, C28, C31-C33: encodings, error messages, helpers, size estimates.
    [cbor], [head], [cbor_seq] and the item types are the RFC specification in Rfc.v. *)
From Verif Require Import Monad Common MsgError Helpers Rfc CborProofs RfcProofs CodecProofs Demo.

(** ** C08.  What is written is the RFC 8949 encoding. *)
Theorem C08_int_written : forall v, enc_int v = cbor (Num v).
Proof. exact enc_int_rfc. Qed.
Print Assumptions C08_int_written.
Theorem C08_bstr_written : forall b, enc_bstr b = cbor (Bstr b).
Proof. exact enc_bstr_rfc. Qed.
Print Assumptions C08_bstr_written.
Theorem C08_tstr_written : forall b, enc_tstr b = cbor (Tstr b).
Proof. exact enc_tstr_rfc. Qed.
Print Assumptions C08_tstr_written.
Theorem C08_suites_written : forall l, 1 <= zlen l <= 3 ->
  enc_suites (match l with [s] => SuInt s | _ => SuList l end) = Some (cbor (suites_item l)).
Proof. exact suites_v_enc. Qed.
Print Assumptions C08_suites_written.
Theorem C08_cid_written : forall c, cid_ok c -> enc_cidv (cid_v c) = Some (cbor (cid_item c)).
Proof. exact cid_v_enc. Qed.
Print Assumptions C08_cid_written.
Theorem C08_id_cred_written : forall i, idcred_ok i ->
  enc_id_cred (idcred_v i) = Some (cbor (idcred_item i)).
Proof. exact idcred_v_enc. Qed.
Print Assumptions C08_id_cred_written.
Theorem C08_ead_written : forall e, enc_ead_item e = cbor_seq (ead_items e).
Proof. exact enc_ead_item_rfc. Qed.
Print Assumptions C08_ead_written.
Theorem C08_info_written : forall label context len, enc_info label context len = info label context len.
Proof. exact enc_info_rfc. Qed.
Print Assumptions C08_info_written.
Theorem C08_sig_structure_written : forall p e m, enc_sig_structure p e m = sig_structure p e m.
Proof. exact enc_sig_structure_rfc. Qed.
Print Assumptions C08_sig_structure_written.
Theorem C08_enc_structure_written : forall p e, enc_enc_structure p e = enc_structure p e.
Proof. exact enc_enc_structure_rfc. Qed.
Print Assumptions C08_enc_structure_written.
(** What is read is the value, and exactly its bytes are consumed, in both decoder modes,
    whatever follows. *)
Theorem C08_int_read : forall canon v ec r, - 2 ^ 31 <= v < 2 ^ 31 -> 0 < ec ->
  dec_int32 canon (DS ec (cbor (Num v) ++ r)) = Some (v, DS (ec - 1) r).
Proof. exact int_dec. Qed.
Print Assumptions C08_int_read.
Theorem C08_bstr_read : forall canon b ec r, zlen b < 2 ^ 64 -> 0 < ec ->
  dec_bstr canon (DS ec (cbor (Bstr b) ++ r)) = Some (b, DS (ec - 1) r).
Proof. exact bstr_dec. Qed.
Print Assumptions C08_bstr_read.
Theorem C08_tstr_read : forall canon b ec r, zlen b < 2 ^ 64 -> 0 < ec ->
  dec_tstr canon (DS ec (cbor (Tstr b) ++ r)) = Some (b, DS (ec - 1) r).
Proof. exact tstr_dec. Qed.
Print Assumptions C08_tstr_read.
Theorem C08_suites_read : forall canon l ec r, 1 <= zlen l <= 3 ->
  Forall (fun v => - 2 ^ 31 <= v < 2 ^ 31) l -> 0 < ec ->
  dec_suites canon (DS ec (cbor (suites_item l) ++ r)) =
  Some (match l with [s] => SuInt s | _ => SuList l end, DS (ec - 1) r).
Proof. exact suites_dec. Qed.
Print Assumptions C08_suites_read.
Theorem C08_cid_read : forall canon c ec r, cid_ok c -> 0 < ec ->
  dec_cidv canon (DS ec (cbor (cid_item c) ++ r)) = Some (cid_v c, DS (ec - 1) r).
Proof. exact cid_dec. Qed.
Print Assumptions C08_cid_read.
Theorem C08_id_cred_read : forall canon i ec r, idcred_ok i -> 0 < ec ->
  dec_idv canon (DS ec (cbor (idcred_item i) ++ r)) =
  Some (IvMap (cmap_of (idcred_v i)), DS (ec - 1) r).
Proof. exact idcred_dec. Qed.
Print Assumptions C08_id_cred_read.
Theorem C08_ead_read : forall canon l v ec r, - 2 ^ 31 <= l < 2 ^ 31 -> zlen v < 2 ^ 64 -> 1 < ec ->
  dec_ead_item canon (DS ec (cbor_seq (ead_items (l, Some v)) ++ r)) =
  Some (TK l (ZS (zlen v) (Some (v ++ r))), DS (ec - 2) r).
Proof. exact ead_dec. Qed.
Print Assumptions C08_ead_read.
(** An item without value is read as such unless a byte string follows it. *)
Theorem C08_ead_read_no_value : forall canon l ec r, - 2 ^ 31 <= l < 2 ^ 31 -> 1 < ec ->
  match r with [] => True | h :: _ => h / 2 ^ 5 <> 2 end ->
  dec_ead_item canon (DS ec (cbor_seq (ead_items (l, None)) ++ r)) =
  Some (TK l (ZS 0 None), DS (ec - 1) r).
Proof. exact ead_dec_none. Qed.
Print Assumptions C08_ead_read_no_value.
(** Two item sequences never share an encoding; no encoding is a prefix of another. *)
Theorem C08_sequences_injective : forall l l', Forall sane l -> Forall sane l' ->
  cbor_seq l = cbor_seq l' -> l = l'.
Proof. exact cbor_seq_inj. Qed.
Print Assumptions C08_sequences_injective.
Theorem C08_items_prefix_free : forall a b r r', sane a -> sane b ->
  cbor a ++ r = cbor b ++ r' -> a = b /\ r = r'.
Proof. exact cbor_unique. Qed.
Print Assumptions C08_items_prefix_free.
Example C08_example :
  cbor (Num (-24)) = [55] /\ cbor (Num 1000) = [25; 3; 232] /\ cbor (Bstr [1; 2]) = [66; 1; 2] /\
  cbor (suites_item [6; 2]) = [130; 6; 2] /\ cbor (suites_item [2]) = [2] /\
  idcred_ok (X5chain [[1; 2]; [3]]) /\ cbor (idcred_item (KidNum 5)) = [161; 4; 5] /\
  cid_ok (CNum (-24)) /\ sane (Arr [Num 1; Map [(Num 2, Tru)]]).
Proof.
  split; [reflexivity|]. split; [reflexivity|]. split; [reflexivity|]. split; [reflexivity|].
  split; [reflexivity|]. split; [split; [vm_compute; split; discriminate|repeat constructor]|].
  split; [reflexivity|]. split; [vm_compute; split; discriminate|].
  vm_compute. repeat split; discriminate.
Qed.

(** ** C27 *)
Theorem C27_error_round_trip : forall size code i msg canon total,
  message_error_compose true size code i = inl (OK, msg) -> err_valid code i ->
  match err_data_of code i with Some d => entries d <= total | None => True end -> 0 < total ->
  zlen msg <= size /\
  msg = error_message code (if code =? 3 then Some InfoTrue
                            else option_map rfc_info (err_data_of code i)) /\
  message_error_process canon true msg (Some total) = inl (OK, EO (Some code) (err_data_of code i)).
Proof. exact error_rt. Qed.
Print Assumptions C27_error_round_trip.
Theorem C27_error_composed : forall size code i, 0 <= code <= 3 -> err_valid code i -> 0 < size ->
  zlen (error_message code (if code =? 3 then Some InfoTrue
                            else option_map rfc_info (err_data_of code i))) <= size ->
  exists msg, message_error_compose true size code i = inl (OK, msg).
Proof. exact error_compose_ok. Qed.
Print Assumptions C27_error_composed.
Example C27_example :
  let i := Some (EA (Some (EdSuites [6; 2; 24; 9])) 4 3) in
  err_valid 2 i /\ message_error_compose true 20 2 i = inl (OK, [2; 131; 6; 2; 24; 24]) /\
  message_error_process false true [2; 131; 6; 2; 24; 24] (Some 3) =
    inl (OK, EO (Some 2) (Some (EdSuites [6; 2; 24]))) /\
  message_error_process false true [2; 131; 6; 2; 24; 24] (Some 2) = inl (E_TOO_SMALL, EO (Some 2) None).
Proof.
  cbv zeta. split; [|repeat split; reflexivity].
  exists [6; 2; 24; 9], 4, 3. repeat split; try lia; try (cbn; lia).
  repeat (constructor; [unfold int32; lia|]). constructor.
Qed.

(** ** C28.  False in general: error information that is a list of three suites, announced by
    the code of a text, is read through the text member of the generated union, so a pointer
    made of received bytes is dereferenced. *)
Theorem C28_error_process_refuted : exists canon msg total,
  message_error_process canon true msg (Some total) = inr UbWild.
Proof. exists true, [1; 131; 1; 2; 3], 10. reflexivity. Qed.
Print Assumptions C28_error_process_refuted.
(** That is the only case; otherwise nothing outside the caller's entries is written. *)
Theorem C28_error_process_partial : forall canon nn msg info,
  match info with Some t => 0 <= t | None => True end ->
  match message_error_process canon nn msg info with
  | inl (r, EO code d) =>
      match d with Some x => exists t, info = Some t /\ entries x <= t | None => True end
  | inr u => u = UbWild /\ exists a b c t,
      dec_message_error canon msg = Some (1, Some (EiSuites (SuList [a; b; c]))) /\
      info = Some t /\ 0 < c mod 2 ^ 32 <= t
  end.
Proof. exact error_process_safe'. Qed.
Print Assumptions C28_error_process_partial.
Example C28_example :
  message_error_process true true [1; 98; 72; 105] (Some 2) = inl (OK, EO (Some 1) (Some (EdText [72; 105]))) /\
  message_error_process true true [1; 98; 72; 105] (Some 1) = inl (E_TOO_SMALL, EO (Some 1) None) /\
  message_error_process true true [1; 98; 72] (Some 1) = inl (OK, EO (Some 1) None).
Proof. repeat split; reflexivity. Qed.

(** ** C31 *)
Theorem C31_flow : forall p p', prepend_flow p = inl (OK, p') ->
  exists o buf, pf_off p' = Some o /\ pf_buf p' = Some buf /\ pf_msize p' = pf_size p - o /\
  forall msg x, 1 <= zlen msg -> ex_buf x = Some (take o buf ++ msg) -> ex_size x = o + zlen msg ->
  exists x', extract_flow_info x = inl (OK, x') /\ ex_off x' = Some o /\ ex_msize x' = zlen msg /\
    ex_fwd x' = true /\ ex_rev x' = false.
Proof. exact flow_rt. Qed.
Print Assumptions C31_flow.
(** Missing: negative integers (see the refutation). *)
Theorem C31_connection_id_partial : forall (E : env) p i p',
  prepend_connection_id p (Some i) = inl (OK, p') ->
  valid_cid cf_max_cid i -> (cid_type i = CID_INT -> 0 <= cid_int i) ->
  cf_max_cid < 2 ^ 64 -> 0 <= pf_size p ->
  exists o buf, pf_off p' = Some o /\ pf_buf p' = Some buf /\ pf_msize p' = pf_size p - o /\
  o <= pf_size p /\ take o buf = cbor (cid_item (denoted i)) /\
  forall msg x, ex_buf x = Some (take o buf ++ msg) -> ex_size x = o + zlen msg ->
  exists x', extract_connection_id x = inl (OK, x') /\ ex_off x' = Some o /\ ex_msize x' = zlen msg /\
    denoted (ex_cid x') = denoted i /\ valid_cid cf_max_cid (ex_cid x').
Proof. exact @cid_frame_rt. Qed.
Print Assumptions C31_connection_id_partial.
Theorem C31_connection_id_refuted : exists (E : env) p i p',
  prepend_connection_id p (Some i) = inl (OK, p') /\ valid_cid cf_max_cid i /\
  exists o buf, pf_off p' = Some o /\ pf_buf p' = Some buf /\
  forall msg, exists r x', extract_connection_id
     (EX (Some (take o buf ++ msg)) (o + zlen msg) None 0 false false cid0) = inl (r, x') /\ r <> OK.
Proof.
  exists (demo_env knobs0), (PF (Some (zeros 8)) 8 None 0), (CID CID_INT (-1) []). eexists.
  split; [vm_compute; reflexivity|]. split; [left; cbn; split; [reflexivity|lia]|].
  eexists. eexists. split; [reflexivity|]. split; [reflexivity|]. exact neg_cid_fails.
Qed.
Print Assumptions C31_connection_id_refuted.
Theorem C31_recalculate : forall p p', 0 <= pf_size p < 2 ^ 64 -> 0 <= pf_msize p < 2 ^ 64 ->
  prepend_recalculate_size p = (OK, p') ->
  exists o, pf_off p = Some o /\ pf_buf p' = pf_buf p /\ pf_off p' = Some o /\ pf_msize p' = pf_msize p /\
  (o + pf_msize p < 2 ^ 64 -> pf_size p' = o + pf_msize p /\ pf_size p' <= pf_size p).
Proof. exact recalc_ok. Qed.
Print Assumptions C31_recalculate.
Example C31_example :
  let E := demo_env knobs0 in
  exists p', @prepend_connection_id E (PF (Some (zeros 8)) 8 None 0) (Some (CID CID_BSTR 0 [7; 8; 9])) = inl (OK, p') /\
  pf_off p' = Some 4 /\ valid_cid (@cf_max_cid E) (CID CID_BSTR 0 [7; 8; 9]) /\
  match @extract_connection_id E (EX (Some ([67; 7; 8; 9] ++ [1; 2])) 6 None 0 false false cid0) with
  | inl (r, x') => r = OK /\ ex_cid x' = CID CID_BSTR 0 [7; 8; 9] /\ ex_off x' = Some 4 /\ ex_msize x' = 2
  | inr _ => False
  end.
Proof.
  cbv zeta. eexists. split; [vm_compute; reflexivity|]. split; [reflexivity|]. split.
  - right. split; [reflexivity|]. vm_compute. split; discriminate.
  - vm_compute. repeat split.
Qed.

(** ** C32 *)
Theorem C32_equal_iff_same : forall mx a b, valid_cid mx a -> valid_cid mx b ->
  (connection_id_equal (Some a) (Some b) = true <-> denoted a = denoted b).
Proof. exact cid_equal_iff. Qed.
Print Assumptions C32_equal_iff_same.
Theorem C32_reflexive : forall mx a, valid_cid mx a -> connection_id_equal (Some a) (Some a) = true.
Proof. exact cid_equal_refl. Qed.
Print Assumptions C32_reflexive.
Theorem C32_symmetric : forall a b, connection_id_equal a b = connection_id_equal b a.
Proof. exact cid_equal_sym. Qed.
Print Assumptions C32_symmetric.
Theorem C32_transitive : forall mx a b c, valid_cid mx a -> valid_cid mx b -> valid_cid mx c ->
  connection_id_equal (Some a) (Some b) = true -> connection_id_equal (Some b) (Some c) = true ->
  connection_id_equal (Some a) (Some c) = true.
Proof. exact cid_equal_trans. Qed.
Print Assumptions C32_transitive.
Example C32_example :
  valid_cid 7 (CID CID_BSTR 5 [1; 2]) /\
  connection_id_equal (Some (CID CID_BSTR 5 [1; 2])) (Some (CID CID_BSTR 6 [1; 2])) = true /\
  connection_id_equal (Some (CID CID_INT 5 [1])) (Some (CID CID_INT 5 [2])) = true /\
  connection_id_equal (Some (CID CID_INT 5 [])) (Some (CID CID_BSTR 0 [5])) = false /\
  connection_id_equal (Some (CID CID_BSTR 0 [1; 2])) (Some (CID CID_BSTR 0 [1; 3])) = false.
Proof. split; [right; split; [reflexivity|cbn; lia]|repeat split; reflexivity]. Qed.

(** ** C33.  The estimates are right up to 16-bit values and too small beyond. *)
Theorem C33_int_estimate_partial : forall v,
  zlen (cbor (Num v)) <= int_mem_req v <-> - 2 ^ 16 <= v <= 2 ^ 16 - 1.
Proof. exact int_size. Qed.
Print Assumptions C33_int_estimate_partial.
Theorem C33_int_exact_partial : forall v, - 2 ^ 16 <= v <= 2 ^ 16 - 1 ->
  int_mem_req v = zlen (cbor (Num v)).
Proof. exact int_size_exact. Qed.
Print Assumptions C33_int_exact_partial.
Theorem C33_bstr_estimate_partial : forall b,
  zlen (cbor (Bstr b)) <= bstr_oh (zlen b) + zlen b <-> zlen b < 2 ^ 16.
Proof. exact bstr_estimate. Qed.
Print Assumptions C33_bstr_estimate_partial.
Theorem C33_tstr_estimate_partial : forall b,
  zlen (cbor (Tstr b)) <= tstr_oh (zlen b) + zlen b <-> zlen b < 2 ^ 16.
Proof. exact tstr_estimate. Qed.
Print Assumptions C33_tstr_estimate_partial.
Theorem C33_array_estimate_partial : forall l,
  zlen (cbor (Arr l)) <= array_oh (zlen l) + zlen (cbor_seq l) <-> zlen l < 2 ^ 16.
Proof. exact arr_estimate. Qed.
Print Assumptions C33_array_estimate_partial.
Theorem C33_map_estimate_partial : forall l,
  zlen (cbor (Map l)) <=
    map_oh (zlen l) + zlen (flat_map (fun p : item * item => let (k, v) := p in cbor k ++ cbor v) l)
  <-> zlen l < 2 ^ 16.
Proof. exact map_estimate. Qed.
Print Assumptions C33_map_estimate_partial.
Theorem C33_estimates_refuted :
  (exists v, - 2 ^ 31 <= v < 2 ^ 31 /\ int_mem_req v < zlen (cbor (Num v))) /\
  (exists b, bstr_oh (zlen b) + zlen b < zlen (cbor (Bstr b))).
Proof.
  split; [exists 65536; vm_compute; repeat split; discriminate|].
  exists (zeros 65536). vm_compute. reflexivity.
Qed.
Print Assumptions C33_estimates_refuted.
