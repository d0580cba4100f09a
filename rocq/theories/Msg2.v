(** library/edhoc_message_2.c. *)
From Verif Require Import Monad Common Msg1.

Section Msg2.
Context {E : env}.

(** EDHOC_Expand with an [info] structure built in a scratch buffer.  The same sequence
    stands in message_2.c 785-833 and 1276-1327, message_3.c 1055-1106 and
    exporter.c 98-156, 174-229, 247-303: allocate [len] bytes, encode
    (label, context, n), import the PRK, expand [n] bytes, destroy the key, release.
    [exact]: the encoding must fill the buffer.  [prk] and [context] are read when the C
    code reads them. *)
Definition kdf (exact : bool) (len label : Z) (context : M bytes) (prk : M bytes) (n : Z)
  : M (Z * bytes) :=
  ok <- alloc BInfo len ;;
  if negb ok then ret (E_NO_MEM, []) else
  cx <- context ;;
  match fits len (enc_info label cx (u32 n)) with
  | None => free BInfo ;;; ret (E_CBOR, [])
  | Some info =>
  if exact && negb (zlen info =? len) then free BInfo ;;; ret (E_CBOR, []) else
  k <- prk ;;
  '(r, kid) <- call_import KT_EXPAND k ;;
  if negb (r =? OK) then free BInfo ;;; ret (E_CRYPTO, []) else
  '(r, out) <- call_expand kid info n ;;
  call_destroy kid ;;;
  free BInfo ;;;
  if negb (r =? OK) then ret (E_CRYPTO, []) else ret (OK, blit (zeros n) out)
  end.

(** 274-317 [gen_dh_keys]. *)
Definition gen_dh_keys : M Z :=
  '(r, kid) <- call_import KT_MAKE_KEY_PAIR [] ;;
  if negb (r =? OK) then ret E_CRYPTO else
  s <- get_suite ;;
  modify (fun c => set_dh_priv_len (cs_ecc s) (set_dh_pub_len (cs_ecc s) c)) ;;;
  '(r, priv, pub) <- call_mkpair kid (cs_ecc s) (cs_ecc s) ;;
  put_dh_priv priv ;;; put_dh_pub pub ;;;
  call_destroy kid ;;;
  if negb (r =? OK) || negb (cs_ecc s =? zlen priv) || negb (cs_ecc s =? zlen pub)
  then ret E_CRYPTO else ret OK.

(** 319-357 [comp_dh_secret]. *)
Definition comp_dh_secret : M Z :=
  k <- get_dh_priv ;;
  '(r, kid) <- call_import KT_KEY_AGREEMENT k ;;
  if negb (r =? OK) then ret E_CRYPTO else
  s <- get_suite ;;
  modify (set_dh_secret_len (cs_ecc s)) ;;;
  p <- get_dh_peer ;;
  '(r, out) <- call_agree kid p (cs_ecc s) ;;
  put_dh_secret out ;;;
  call_destroy kid ;;;
  if negb (r =? OK) || negb (zlen out =? cs_ecc s) then ret E_CRYPTO else ret OK.

(** 359-463 [comp_th_2]: TH_2 = H( G_Y, H(message_1) ). *)
Definition comp_th_2 : M Z :=
  c <- getc ;;
  if negb (c_th_state c =? TH_1) then ret E_BAD_STATE else
  s <- get_suite ;;
  let gl := cs_ecc s + bstr_oh (cs_ecc s) in
  let hl := cs_hash s + bstr_oh (cs_hash s) in
  ok <- alloc BTh (gl + hl) ;;
  if negb ok then ret E_NO_MEM else
  if negb (role_ok c) then free BTh ;;; ret E_NOT_PERMITTED else
  g <- (if c_role c =? INITIATOR then get_dh_peer else get_dh_pub) ;;
  match fits gl (enc_bstr g) with
  | None => free BTh ;;; ret E_CBOR
  | Some gb =>
  if negb (gl =? zlen gb) then free BTh ;;; ret E_CBOR else
  t <- get_th ;;
  match fits hl (enc_bstr t) with
  | None => free BTh ;;; ret E_CBOR
  | Some hb =>
  if negb (hl =? zlen hb) then free BTh ;;; ret E_CBOR else
  '(r, n) <- hash_into_th (cs_hash s) (gb ++ hb) ;;
  free BTh ;;;
  if negb (r =? OK) || negb (cs_hash s =? n) then ret E_CRYPTO else
  modify (set_th_state TH_2) ;;; ret OK
  end end.

(** 465-506 [comp_prk_2e]. *)
Definition comp_prk_2e : M Z :=
  c <- getc ;;
  if negb (c_th_state c =? TH_2) || negb (c_prk_state c =? PRK_INVALID) then ret E_BAD_STATE
  else
  s <- get_suite ;;
  modify (set_prk_len (cs_hash s)) ;;;
  k <- get_dh_secret ;;
  '(r, kid) <- call_import KT_EXTRACT k ;;
  if negb (r =? OK) then ret E_CRYPTO else
  t <- get_th ;;
  '(r, out) <- call_extract kid t (cs_hash s) ;;
  put_prk out ;;;
  call_destroy kid ;;;
  if negb (r =? OK) || negb (cs_hash s =? zlen out) then ret E_CRYPTO else
  modify (set_prk_state PRK_2E) ;;; ret OK.

(** Length of [info] with the transcript hash as context (message_2.c 786-789, 1284-1287,
    message_3.c 1063-1066). *)
Definition info_th_len (c : ctx) (label n : Z) : Z :=
  int_mem_req label + (c_th_len c + bstr_oh (c_th_len c)) + int_mem_req (i32 n).

(** 1258-1327 [comp_salt_3e2m]. *)
Definition comp_salt_3e2m (n : Z) : M (Z * bytes) :=
  if n =? 0 then ret (E_INVALID_ARG, []) else
  c <- getc ;;
  if negb (c_th_state c =? TH_2) || negb (c_prk_state c =? PRK_2E)
  then ret (E_BAD_STATE, []) else
  kdf true (info_th_len c L_SALT_3E2M n) L_SALT_3E2M get_th get_prk n.

(** The static-ephemeral secret computed with the context's own ephemeral key, which is
    erased right after the import (message_2.c 1342-1371, message_3.c 1145-1173). *)
Definition agree_eph (pub : bytes) (n : Z) : M (Z * bytes) :=
  k <- get_dh_priv ;;
  '(r, kid) <- call_import KT_KEY_AGREEMENT k ;;
  modify (fun c => set_dh_priv [] (set_dh_priv_len 0 c)) ;;;
  if negb (r =? OK) then ret (E_CRYPTO, []) else
  '(r, out) <- call_agree kid pub n ;;
  call_destroy kid ;;;
  if negb (r =? OK) || negb (zlen out =? n) then ret (E_CRYPTO, []) else ret (OK, out).
(** ... and with the long-term key the credentials name (message_2.c 1374-1389,
    message_3.c 1121-1136). *)
Definition agree_static (cr : creds) (n : Z) : M (Z * bytes) :=
  p <- get_dh_peer ;;
  '(r, out) <- call_agree (cr_priv cr) p n ;;
  if negb (r =? OK) || negb (zlen out =? n) then ret (E_CRYPTO, []) else ret (OK, out).

(** 1329-1397 [comp_grx]. *)
Definition comp_grx (cr : creds) (pub : bytes) (n : Z) : M (Z * bytes) :=
  if n =? 0 then ret (E_INVALID_ARG, []) else
  c <- getc ;;
  if c_role c =? INITIATOR then agree_eph pub n
  else if c_role c =? RESPONDER then agree_static cr n
  else ret (E_NOT_PERMITTED, []).

(** The static-DH branch of message_2.c 528-606 and message_3.c 290-366: derive the salt, the
    shared secret, and extract the next PRK. *)
Definition prk_static (salt_of : Z -> M (Z * bytes)) (gxx_of : Z -> M (Z * bytes)) (next : Z)
  : M Z :=
  s <- get_suite ;;
  ok <- alloc BSalt (cs_hash s) ;;
  if negb ok then ret E_NO_MEM else
  '(r, salt) <- salt_of (cs_hash s) ;;
  if negb (r =? OK) then free BSalt ;;; ret E_CRYPTO else
  ok <- alloc BGxx (cs_ecc s) ;;
  if negb ok then free BSalt ;;; ret E_NO_MEM else
  '(r, g) <- gxx_of (cs_ecc s) ;;
  if negb (r =? OK) then free BGxx ;;; free BSalt ;;; ret E_CRYPTO else
  modify (set_prk_len (cs_hash s)) ;;;
  '(r, kid) <- call_import KT_EXTRACT g ;;
  free BGxx ;;;
  if negb (r =? OK) then free BSalt ;;; ret E_CRYPTO else
  '(r, out) <- call_extract kid salt (cs_hash s) ;;
  put_prk out ;;;
  call_destroy kid ;;;
  free BSalt ;;;
  if negb (r =? OK) || negb (cs_hash s =? zlen out) then ret E_CRYPTO else
  modify (set_prk_state next) ;;; ret OK.

(** 508-614 [comp_prk_3e2m]. *)
Definition comp_prk_3e2m (cr : creds) (pub : bytes) : M Z :=
  c <- getc ;;
  if negb (c_prk_state c =? PRK_2E) then ret E_BAD_STATE else
  let m := c_chosen_method c in
  if (m =? 0) || (m =? 2) then modify (set_prk_state PRK_3E2M) ;;; ret OK
  else if (m =? 1) || (m =? 3) then
    prk_static comp_salt_3e2m (comp_grx cr pub) PRK_3E2M
  else ret E_NOT_PERMITTED.

(** 616-658 [comp_plaintext_2_len]; message_3.c 376-418 is the same text. *)
Definition comp_plaintext_len (m : macctx) (sign_len : Z) : M (Z * Z) :=
  if sign_len =? 0 then ret (E_INVALID_ARG, 0) else
  c <- getc ;;
  let i := c_cid c in
  let l0 := if cid_type i =? CID_INT then int_mem_req (cid_int i)
            else if cid_type i =? CID_BSTR
            then zlen (cid_bstr i) + bstr_oh (zlen (cid_bstr i)) else 0 in
  let l1 := if mc_comp m then
              if mc_ctype m =? ENC_INT then int_mem_req (mc_cint m)
              else if mc_ctype m =? ENC_BSTR
              then zlen (mc_cbstr m) + bstr_oh (zlen (mc_cbstr m)) else 0
            else zlen (mc_id m) in
  ret (OK, l0 + l1 + sign_len + bstr_oh sign_len + zlen (mc_ead m)).

(** ID_CRED, Signature_or_MAC and EAD written after [pre] into a plaintext buffer of [size]
    bytes (message_2.c 703-757, message_3.c 437-485). *)
Definition fill_plaintext (m : macctx) (sign pre : bytes) (size : Z) : M (Z * bytes) :=
  '(r, idb) <- (if mc_comp m then
                  if mc_ctype m =? ENC_INT then ret (OK, [u8 (mc_cint m)])
                  else if mc_ctype m =? ENC_BSTR then ret (OK, mc_cbstr m)
                  else ret (E_NOT_PERMITTED, [])
                else ret (OK, mc_id m)) ;;
  if negb (r =? OK) then ret (r, []) else
  let p1 := pre ++ idb in
  check (zlen p1 <=? size) UbWrite ;;;
  match fits (zlen sign + bstr_oh (zlen sign)) (enc_bstr sign) with
  | None => ret (E_CBOR, [])
  | Some sb =>
  let p2 := p1 ++ sb in
  check (zlen p2 <=? size) UbWrite ;;;
  let p3 := if mc_is_ead m then p2 ++ mc_ead m else p2 in
  check (zlen p3 <=? size) UbWrite ;;;
  ret (OK, p3)
  end.

(** 660-760 [prepare_plaintext_2]. *)
Definition prepare_plaintext_2 (m : macctx) (sign : bytes) (size : Z) : M (Z * bytes) :=
  c <- getc ;;
  if negb ((cid_type (c_cid c) =? CID_INT) || (cid_type (c_cid c) =? CID_BSTR))
  then ret (E_NOT_PERMITTED, []) else
  match encode_cid (c_cid c) size with
  | None => ret (E_CBOR, [])
  | Some cb => fill_plaintext m sign cb size
  end.

(** 762-833 [comp_keystream]. *)
Definition comp_keystream (prk : bytes) (n : Z) : M (Z * bytes) :=
  if (zlen prk =? 0) || (n =? 0) then ret (E_INVALID_ARG, []) else
  c <- getc ;;
  if negb (c_th_state c =? TH_2) then ret (E_BAD_STATE, []) else
  kdf true (info_th_len c L_KEYSTREAM_2 n) L_KEYSTREAM_2 get_th (ret prk) n.

(** 841-893 [prepare_message_2]. *)
Definition prepare_message_2 (ctxt : bytes) (size : Z) : M (Z * bytes) :=
  if (zlen ctxt =? 0) || (size =? 0) then ret (E_INVALID_ARG, []) else
  c <- getc ;;
  ok <- alloc BMsg (c_dh_pub_len c + zlen ctxt) ;;
  if negb ok then ret (E_NO_MEM, []) else
  p <- get_dh_pub ;;
  free BMsg ;;;
  match fits size (enc_bstr (p ++ ctxt)) with
  | None => ret (E_CBOR, [])
  | Some m => ret (OK, m)
  end.

(** The byte string of message 2 as zcbor returns it (922-940): pointer into the message. *)
Definition dec_message_2 (msg : bytes) : option zstr :=
  match dec_str_p cf_canon 2 zstr0 (DS 1 msg) with
  | (true, z, _) => Some z
  | _ => None
  end.

(** 895-922 [comp_ciphertext_2_len]: the subtraction is on size_t. *)
Definition comp_ciphertext_2_len (msg : bytes) : M (Z * Z) :=
  match dec_message_2 msg with
  | None => ret (E_CBOR, 0)
  | Some z => s <- get_suite ;; ret (OK, size_sub (zs_len z) (cs_ecc s))
  end.

(** 924-956 [parse_msg_2]. *)
Definition parse_msg_2 (msg : bytes) (n : Z) : M (Z * bytes) :=
  match dec_message_2 msg with
  | None => ret (E_CBOR, [])
  | Some z =>
    s <- get_suite ;;
    modify (set_dh_peer_len (cs_ecc s)) ;;;
    g <- rd_ptr (cs_ecc s) (zs_ptr z) ;;
    put_dh_peer g ;;;
    b <- rd_ptr n (match zs_ptr z with Some p => Some (drop (cs_ecc s) p) | None => None end) ;;
    ret (OK, b)
  end.

(** Credentials named by ID_CRED_R in a plaintext (1012-1140).  [first] says which of
    x5chain and x5t wins when the map has both: message 2 overwrites x5chain by x5t (1094),
    message 3 leaves the switch after x5chain (message_3.c 953).  A map with neither leaves the
    zero-initialised structure.  In the overwriting case the certificate member of the union
    is left to the verify callback. *)
Definition creds_of_chain (c : chainv) : Z * creds :=
  match c with
  | ChOne b => (OK, CR [] COSE_CHAIN (CChain [b]))
  | ChList l => if cf_max_certs <? zlen l then (E_TOO_SMALL, creds0)
                else (OK, CR [] COSE_CHAIN (CChain l))
  end.
Definition creds_of_x5t (h : algv * bytes) : Z * creds :=
  match h with
  | (AlgInt v, fp) => (OK, CR [] COSE_HASH (CHash [] fp ENC_INT v []))
  | (AlgTstr b, fp) =>
    if cf_max_alg + 1 <? zlen b then (E_TOO_SMALL, creds0)
    else (OK, CR [] COSE_HASH (CHash [] fp ENC_BSTR 0 b))
  end.
Definition parse_id_cred (chain_wins : bool) (i : idv) : M (Z * creds) :=
  match i with
  | IvInt v => ret (OK, CR [] COSE_KID (CKid [] false ENC_INT v []))
  | IvBstr b =>
    (* unchecked memcpy into key_id_bstr[MAX_LEN_OF_CRED_KEY_ID + 1] *)
    check (zlen b <=? cf_max_kid + 1) UbKidWrite ;;;
    ret (OK, CR [] COSE_KID (CKid [] false ENC_BSTR 0 b))
  | IvMap (CMap _ ch h) =>
    match ch, h with
    | None, None => ret (OK, creds0)
    | Some c, None => ret (creds_of_chain c)
    | None, Some x => ret (creds_of_x5t x)
    | Some c, Some x =>
      let '(r, cr) := creds_of_chain c in
      if negb (r =? OK) then ret (r, cr)
      else if chain_wins then ret (r, cr) else ret (creds_of_x5t x)
    end
  end.

(** EAD tokens copied into ctx->ead_token[MAX_NR_OF_EAD_TOKENS + 1] (1162-1178). *)
Definition store_tokens (l : list token) : M unit :=
  if zlen l =? 0 then ret tt else
  check (zlen l <=? cf_max_ead + 1) UbWrite ;;; modify (set_tokens l).

(** C_R into ctx->peer_cid (975-1009). *)
Definition store_peer_cid (i : cidv) : M Z :=
  match i with
  | CidInt v =>
    if (i8 v <? -24) || (23 <? i8 v) then ret E_NOT_PERMITTED else
    modify (fun c => set_peer_cid (CID CID_INT (i8 v) (cid_bstr (c_peer_cid c))) c) ;;; ret OK
  | CidBstr b =>
    if cf_max_cid + 1 <? zlen b then ret E_TOO_SMALL else
    modify (fun c => set_peer_cid (CID CID_BSTR (cid_int (c_peer_cid c)) b) c) ;;; ret OK
  end.

(** 958-1182 [parse_plaintext_2]: credentials and Signature_or_MAC_2. *)
Definition parse_plaintext_2 (ptxt : bytes) : M (Z * (creds * bytes)) :=
  if zlen ptxt =? 0 then ret (E_INVALID_ARG, (creds0, [])) else
  match dec_plaintext_2 cf_canon ptxt with
  | None => ret (E_CBOR, (creds0, []))
  | Some d =>
    r <- store_peer_cid (pt_cid d) ;;
    if negb (r =? OK) then ret (r, (creds0, [])) else
    '(r, cr) <- parse_id_cred false (pt_id d) ;;
    if negb (r =? OK) then ret (r, (creds0, [])) else
    store_tokens (pt_ead d) ;;;
    ret (OK, (cr, pt_sig d))
  end.

(** Next transcript hash over TH, the plaintext and the credential (message_2.c 1184-1256
    [comp_th_3], message_3.c 677-756 [comp_th_4]).  [strict]: a hash of another length is an
    error (only in comp_th_4). *)
Definition comp_th_next (cur next : Z) (strict : bool) (m : macctx) (ptxt : bytes) : M Z :=
  if zlen ptxt =? 0 then ret E_INVALID_ARG else
  c <- getc ;;
  if negb (c_th_state c =? cur) then ret E_BAD_STATE else
  let len := (c_th_len c + bstr_oh (c_th_len c)) + zlen ptxt + zlen (mc_cred m) in
  ok <- alloc BTh len ;;
  if negb ok then ret E_NO_MEM else
  t <- get_th ;;
  match fits len (enc_bstr t) with
  | None => free BTh ;;; ret E_CBOR
  | Some tb =>
  let all := tb ++ ptxt ++ mc_cred m in
  check (zlen all <=? len) UbWrite ;;;
  s <- get_suite ;;
  '(r, n) <- hash_into_th (cs_hash s) (arr_read len all) ;;
  free BTh ;;;
  if negb (r =? OK) || (strict && negb (n =? cs_hash s)) then ret E_CRYPTO else
  modify (set_th_state next) ;;; ret OK
  end.
Definition comp_th_3 := comp_th_next TH_2 TH_3 false.

(** Release a list of buffers. *)
Fixpoint frees (l : list buf) : M unit :=
  match l with [] => ret tt | b :: l' => free b ;;; frees l' end.
(** Error return after releasing the buffers that are live at that point. *)
Definition fail (l : list buf) (r : Z) : M (Z * bytes) := frees l ;;; ret (r, []).
Definition failp (l : list buf) (r : Z) : M Z := frees l ;;; ret r.

(** 1422-1749 [edhoc_message_2_compose]. *)
Definition message_2_compose (nn : bool) (size : Z) : M (Z * bytes) :=
  if negb nn || (size =? 0) then ret (E_INVALID_ARG, []) else
  c <- getc ;;
  if negb (in_state SM_RECEIVED_M1 TH_1 PRK_INVALID c) then ret (E_BAD_STATE, []) else
  enter MSG_2 RESPONDER ;;;
  r <- gen_dh_keys ;; if negb (r =? OK) then ret (E_EPH_DH, []) else
  r <- comp_dh_secret ;; if negb (r =? OK) then ret (E_EPH_DH, []) else
  r <- comp_th_2 ;; if negb (r =? OK) then ret (E_TH, []) else
  r <- comp_prk_2e ;; if negb (r =? OK) then ret (E_PRK, []) else
  c1 <- getc ;;
  ok <- alloc BPrk2e (c_prk_len c1) ;; if negb ok then ret (E_NO_MEM, []) else
  prk_2e <- get_prk ;;
  '(r, cr) <- call_fetch ;; if negb (r =? OK) then fail [BPrk2e] E_CRED else
  ok <- ead_compose ;; if negb ok then fail [BPrk2e] E_EAD_COMPOSE else
  r <- comp_prk_3e2m cr [] ;; if negb (r =? OK) then fail [BPrk2e] E_PRK else
  '(r, ml) <- comp_mac_context_length cr ;; if negb (r =? OK) then fail [BPrk2e] r else
  ok <- alloc BMacCtx (cf_sizeof_mac + ml) ;; if negb ok then fail [BPrk2e] E_NO_MEM else
  '(r, m) <- comp_mac_context cr ml ;;
  if negb (r =? OK) then fail [BMacCtx; BPrk2e] r else
  '(r, n) <- comp_mac_length ;; if negb (r =? OK) then fail [BMacCtx; BPrk2e] r else
  ok <- alloc BMac n ;; if negb ok then fail [BMacCtx; BPrk2e] E_NO_MEM else
  '(r, mac) <- comp_mac m n ;; if negb (r =? OK) then fail [BMac; BMacCtx; BPrk2e] r else
  '(r, sl) <- comp_sign_or_mac_length ;;
  if negb (r =? OK) then fail [BMac; BMacCtx; BPrk2e] r else
  ok <- alloc BSignature sl ;; if negb ok then fail [BMac; BMacCtx; BPrk2e] E_NO_MEM else
  '(r, sign) <- comp_sign_or_mac cr m mac sl ;;
  free BMac ;;;
  if negb (r =? OK) then fail [BSignature; BMacCtx; BPrk2e] r else
  '(r, pl) <- comp_plaintext_len m (zlen sign) ;;
  if negb (r =? OK) then fail [BSignature; BMacCtx; BPrk2e] E_TOO_SMALL else
  ok <- alloc BPlaintext pl ;;
  if negb ok then fail [BSignature; BMacCtx; BPrk2e] E_NO_MEM else
  '(r, ptxt) <- prepare_plaintext_2 m sign pl ;;
  free BSignature ;;;
  if negb (r =? OK) then fail [BPlaintext; BMacCtx; BPrk2e] E_CBOR else
  ok <- alloc BKeystream (zlen ptxt) ;;
  if negb ok then fail [BPlaintext; BMacCtx; BPrk2e] E_NO_MEM else
  '(r, ks) <- comp_keystream prk_2e (zlen ptxt) ;;
  free BPrk2e ;;;
  if negb (r =? OK) then fail [BKeystream; BPlaintext; BMacCtx] E_CRYPTO else
  r <- comp_th_3 m ptxt ;;
  free BMacCtx ;;;
  if negb (r =? OK) then fail [BKeystream; BPlaintext] E_TH else
  let ctxt := xor_bytes ptxt ks in
  free BKeystream ;;;
  '(r, msg) <- prepare_message_2 ctxt size ;;
  if negb (r =? OK) then fail [BPlaintext] E_CBOR else
  free BPlaintext ;;;
  modify (fun c => set_error EC_SUCCESS (set_status SM_WAIT_M3 (set_tokens [] c))) ;;;
  ret (OK, msg).

(** Processing of received EAD in messages 2, 3 and 4 (message_2.c 1867-1893,
    message_3.c 1681-1707, message_4.c 888-913).  Result: success? *)
Definition ead_process : M bool :=
  c <- getc ;;
  match f_process (c_ead c) with
  | Some f =>
    if (cf_max_ead =? 0) || (zlen (c_tokens c) =? 0) then ret true else
    r <- call_process f (c_message c) (c_tokens c) ;; ret (r =? OK)
  | None => ret true
  end.

(** 1771-2061 [edhoc_message_2_process]. *)
Definition message_2_process (nn : bool) (msg : bytes) : M Z :=
  if negb nn || (zlen msg =? 0) then ret E_INVALID_ARG else
  c <- getc ;;
  if negb (in_state SM_WAIT_M2 TH_1 PRK_INVALID c) then ret E_BAD_STATE else
  enter MSG_2 INITIATOR ;;;
  '(r, cl) <- comp_ciphertext_2_len msg ;; if negb (r =? OK) then ret E_TOO_SMALL else
  ok <- alloc BCiphertext cl ;; if negb ok then ret E_NO_MEM else
  '(r, ctxt) <- parse_msg_2 msg cl ;; if negb (r =? OK) then failp [BCiphertext] E_CBOR else
  r <- comp_dh_secret ;; if negb (r =? OK) then failp [BCiphertext] E_EPH_DH else
  r <- comp_th_2 ;; if negb (r =? OK) then failp [BCiphertext] E_TH else
  r <- comp_prk_2e ;; if negb (r =? OK) then failp [BCiphertext] E_PRK else
  ok <- alloc BKeystream cl ;; if negb ok then failp [BCiphertext] E_NO_MEM else
  prk <- get_prk ;;
  '(r, ks) <- comp_keystream prk cl ;;
  if negb (r =? OK) then failp [BKeystream; BCiphertext] E_CRYPTO else
  let ptxt := xor_bytes ctxt ks in
  free BKeystream ;;;
  '(r, (cr, sig)) <- parse_plaintext_2 ptxt ;;
  if negb (r =? OK) then failp [BCiphertext] E_CBOR else
  c2 <- getc ;;
  if negb ((cid_type (c_peer_cid c2) =? CID_INT) || (cid_type (c_peer_cid c2) =? CID_BSTR))
  then failp [BCiphertext] E_NOT_PERMITTED else
  ok <- ead_process ;; if negb ok then failp [BCiphertext] E_EAD_PROCESS else
  '(r, cr, pub) <- call_cverify cr ;;
  if negb (r =? OK) then
    modify (set_error EC_UNKNOWN_CRED) ;;; failp [BCiphertext] E_CRED
  else
  r <- comp_prk_3e2m cr pub ;; if negb (r =? OK) then failp [BCiphertext] E_PRK else
  '(r, ml) <- comp_mac_context_length cr ;;
  if negb (r =? OK) then failp [BCiphertext] E_MAC2 else
  ok <- alloc BMacCtx (cf_sizeof_mac + ml) ;;
  if negb ok then failp [BCiphertext] E_NO_MEM else
  '(r, m) <- comp_mac_context cr ml ;;
  if negb (r =? OK) then failp [BMacCtx; BCiphertext] r else
  '(r, n) <- comp_mac_length ;; if negb (r =? OK) then failp [BMacCtx; BCiphertext] r else
  ok <- alloc BMac n ;; if negb ok then failp [BMacCtx; BCiphertext] E_NO_MEM else
  '(r, mac) <- comp_mac m n ;; if negb (r =? OK) then failp [BMac; BMacCtx; BCiphertext] r else
  r <- verify_sign_or_mac m pub sig mac ;;
  free BMac ;;;
  if negb (r =? OK) then failp [BMacCtx; BCiphertext] E_SIGMAC2 else
  r <- comp_th_3 m ptxt ;;
  frees [BMacCtx; BCiphertext] ;;;
  if negb (r =? OK) then ret E_TH else
  modify (fun c => set_error EC_SUCCESS (set_status SM_VERIFIED_M2 (set_tokens [] c))) ;;;
  ret OK.
End Msg2.
