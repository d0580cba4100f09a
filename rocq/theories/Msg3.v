(** library/edhoc_message_3.c. *)
From Verif Require Import Monad Common Msg1 Msg2.

Section Msg3.
Context {E : env}.

(** 1037-1106 [comp_salt_4e3m]. *)
Definition comp_salt_4e3m (n : Z) : M (Z * bytes) :=
  if n =? 0 then ret (E_INVALID_ARG, []) else
  c <- getc ;;
  if negb (c_th_state c =? TH_3) || negb (c_prk_state c =? PRK_3E2M)
  then ret (E_BAD_STATE, []) else
  kdf true (info_th_len c L_SALT_4E3M n) L_SALT_4E3M get_th get_prk n.

(** 1108-1176 [comp_giy]. *)
Definition comp_giy (cr : creds) (pub : bytes) (n : Z) : M (Z * bytes) :=
  if n =? 0 then ret (E_INVALID_ARG, []) else
  c <- getc ;;
  if c_role c =? INITIATOR then agree_static cr n
  else if c_role c =? RESPONDER then agree_eph pub n
  else ret (E_NOT_PERMITTED, []).

(** 270-374 [comp_prk_4e3m]. *)
Definition comp_prk_4e3m (cr : creds) (pub : bytes) : M Z :=
  c <- getc ;;
  if negb (c_prk_state c =? PRK_3E2M) then ret E_BAD_STATE else
  let m := c_chosen_method c in
  if (m =? 0) || (m =? 1) then modify (set_prk_state PRK_4E3M) ;;; ret OK
  else if (m =? 2) || (m =? 3) then
    prk_static comp_salt_4e3m (comp_giy cr pub) PRK_4E3M
  else ret E_NOT_PERMITTED.

(** 420-488 [prepare_plaintext_3]. *)
Definition prepare_plaintext_3 (m : macctx) (sign : bytes) (size : Z) : M (Z * bytes) :=
  if (zlen sign =? 0) || (size =? 0) then ret (E_INVALID_ARG, []) else
  fill_plaintext m sign [] size.

(** 490-505 [comp_aad_3_len], message_4.c 264-273 [compute_aad_4_len]:
    sizeof("Encrypt0") = 9. *)
Definition aad_len_of (c : ctx) : Z :=
  9 + tstr_oh 9 + 1 + (c_th_len c + bstr_oh (c_th_len c)).

(** One of the two expansions of 539-601: encode [info] into [len] bytes, import, expand,
    destroy.  The scratch buffer stays with the caller. *)
Definition expand_part (len label n : Z) : M (Z * bytes) :=
  t <- get_th ;;
  match fits len (enc_info label t (u32 n)) with
  | None => ret (E_CBOR, [])
  | Some info =>
  k <- get_prk ;;
  '(r, kid) <- call_import KT_EXPAND k ;;
  if negb (r =? OK) then ret (E_CRYPTO, []) else
  '(r, out) <- call_expand kid info n ;;
  call_destroy kid ;;;
  if negb (r =? OK) then ret (E_CRYPTO, []) else ret (OK, blit (zeros n) out)
  end.

(** 507-636 [comp_key_iv_aad_3] and message_4.c 275-405 [compute_key_iv_aad_4] after their
    state checks: key, IV and AAD from the current TH and PRK.  [lk], [li]: info labels. *)
Definition key_iv_aad (lk li aad_len : Z) : M (Z * (bytes * bytes * bytes)) :=
  c <- getc ;;
  s <- get_suite ;;
  let len := int_mem_req L_IV_3 + (c_th_len c + bstr_oh (c_th_len c))
             + int_mem_req (i32 (cs_key s)) in
  ok <- alloc BInfo len ;;
  if negb ok then ret (E_NO_MEM, ([], [], [])) else
  '(r, key) <- expand_part len lk (cs_key s) ;;
  if negb (r =? OK) then free BInfo ;;; ret (r, ([], [], [])) else
  '(r, iv) <- expand_part len li (cs_iv s) ;;
  free BInfo ;;;
  if negb (r =? OK) then ret (r, ([], [], [])) else
  t <- get_th ;;
  match fits aad_len (enc_enc_structure [] t) with
  | None => ret (E_CBOR, ([], [], []))
  | Some a => ret (OK, (key, iv, arr_read aad_len a))
  end.
Definition comp_key_iv_aad_3 (key_len iv_len aad_len : Z) : M (Z * (bytes * bytes * bytes)) :=
  if (key_len =? 0) || (iv_len =? 0) || (aad_len =? 0) then ret (E_INVALID_ARG, ([], [], []))
  else
  c <- getc ;;
  if negb (c_th_state c =? TH_3) then ret (E_BAD_STATE, ([], [], [])) else
  key_iv_aad L_K_3 L_IV_3 aad_len.

(** Import, encrypt, destroy: 652-675, message_4.c 414-437. *)
Definition aead_encrypt (key iv aad ptxt : bytes) (size : Z) : M (Z * bytes) :=
  '(r, kid) <- call_import KT_ENCRYPT key ;;
  if negb (r =? OK) then ret (E_CRYPTO, []) else
  '(r, out) <- call_encrypt kid iv aad ptxt size ;;
  call_destroy kid ;;;
  if negb (r =? OK) then ret (E_CRYPTO, []) else ret (OK, out).
(** 638-675 [comp_ciphertext]. *)
Definition comp_ciphertext (key iv aad ptxt : bytes) (size : Z) : M (Z * bytes) :=
  if (zlen key =? 0) || (zlen iv =? 0) || (zlen aad =? 0) || (zlen ptxt =? 0) || (size =? 0)
  then ret (E_INVALID_ARG, []) else aead_encrypt key iv aad ptxt size.

(** Import, decrypt, destroy: 829-851, message_4.c 500-525.  [n]: size of the plaintext
    buffer and length required. *)
Definition aead_decrypt (key iv aad ctxt : bytes) (n : Z) : M (Z * bytes) :=
  '(r, kid) <- call_import KT_DECRYPT key ;;
  if negb (r =? OK) then ret (E_CRYPTO, []) else
  '(r, out) <- call_decrypt kid iv aad ctxt n ;;
  call_destroy kid ;;;
  if negb (r =? OK) || negb (n =? zlen out) then ret (E_CRYPTO, []) else ret (OK, out).
(** 812-851 [decrypt_ciphertext_3]. *)
Definition decrypt_ciphertext_3 (key iv aad ctxt : bytes) (n : Z) : M (Z * bytes) :=
  if (zlen key =? 0) || (zlen iv =? 0) || (zlen aad =? 0) || (zlen ctxt =? 0) || (n =? 0)
  then ret (E_INVALID_ARG, []) else aead_decrypt key iv aad ctxt n.

(** 677-756 [comp_th_4]. *)
Definition comp_th_4 := comp_th_next TH_3 TH_4 true.

(** 758-783 [gen_msg_3]: the encoder is given one byte more than the caller's buffer has. *)
Definition gen_msg_3 (ctxt : bytes) (size : Z) : M (Z * bytes) :=
  if (zlen ctxt =? 0) || (size =? 0) then ret (E_INVALID_ARG, []) else
  match fits (size + 1) (enc_bstr ctxt) with
  | None => ret (E_CBOR, [])
  | Some m => check (zlen m <=? size) UbMsg3Write ;;; ret (OK, m)
  end.

(** 853-1035 [parse_plaintext_3]. *)
Definition parse_plaintext_3 (ptxt : bytes) : M (Z * (creds * bytes)) :=
  if zlen ptxt =? 0 then ret (E_INVALID_ARG, (creds0, [])) else
  match dec_plaintext_3 cf_canon ptxt with
  | None => ret (E_CBOR, (creds0, []))
  | Some d =>
    '(r, cr) <- parse_id_cred true (pt_id d) ;;
    if negb (r =? OK) then ret (r, (creds0, [])) else
    store_tokens (pt_ead d) ;;;
    ret (OK, (cr, pt_sig d))
  end.

(** 1197-1557 [edhoc_message_3_compose]. *)
Definition message_3_compose (nn : bool) (size : Z) : M (Z * bytes) :=
  if negb nn || (size =? 0) then ret (E_INVALID_ARG, []) else
  c <- getc ;;
  if negb (in_state SM_VERIFIED_M2 TH_3 PRK_3E2M c) then ret (E_BAD_STATE, []) else
  enter MSG_3 INITIATOR ;;;
  s <- get_suite ;;
  ok <- ead_compose ;; if negb ok then ret (E_EAD_COMPOSE, []) else
  '(r, cr) <- call_fetch ;; if negb (r =? OK) then ret (E_CRED, []) else
  ok <- alloc BKey (cs_key s) ;; if negb ok then ret (E_NO_MEM, []) else
  ok <- alloc BIv (cs_iv s) ;; if negb ok then fail [BKey] E_NO_MEM else
  let al := aad_len_of c in
  ok <- alloc BAad al ;; if negb ok then fail [BIv; BKey] E_NO_MEM else
  '(r, (key, iv, aad)) <- comp_key_iv_aad_3 (cs_key s) (cs_iv s) al ;;
  if negb (r =? OK) then fail [BAad; BIv; BKey] E_CRYPTO else
  r <- comp_prk_4e3m cr [] ;; if negb (r =? OK) then fail [BAad; BIv; BKey] E_CRYPTO else
  '(r, ml) <- comp_mac_context_length cr ;;
  if negb (r =? OK) then fail [BAad; BIv; BKey] r else
  ok <- alloc BMacCtx (cf_sizeof_mac + ml) ;;
  if negb ok then fail [BAad; BIv; BKey] E_NO_MEM else
  '(r, m) <- comp_mac_context cr ml ;;
  if negb (r =? OK) then fail [BMacCtx; BAad; BIv; BKey] r else
  '(r, n) <- comp_mac_length ;;
  if negb (r =? OK) then fail [BMacCtx; BAad; BIv; BKey] E_MAC3 else
  ok <- alloc BMac n ;; if negb ok then fail [BMacCtx; BAad; BIv; BKey] E_NO_MEM else
  '(r, mac) <- comp_mac m n ;;
  if negb (r =? OK) then fail [BMac; BMacCtx; BAad; BIv; BKey] E_MAC3 else
  '(r, sl) <- comp_sign_or_mac_length ;;
  if negb (r =? OK) then fail [BMac; BMacCtx; BAad; BIv; BKey] r else
  ok <- alloc BSignature sl ;;
  if negb ok then fail [BMac; BMacCtx; BAad; BIv; BKey] E_NO_MEM else
  '(r, sign) <- comp_sign_or_mac cr m mac sl ;;
  free BMac ;;;
  if negb (r =? OK) then fail [BSignature; BMacCtx; BAad; BIv; BKey] r else
  '(r, pl) <- comp_plaintext_len m (zlen sign) ;;
  if negb (r =? OK) then fail [BSignature; BMacCtx; BAad; BIv; BKey] r else
  ok <- alloc BPlaintext pl ;;
  if negb ok then fail [BSignature; BMacCtx; BAad; BIv; BKey] E_NO_MEM else
  '(r, ptxt) <- prepare_plaintext_3 m sign pl ;;
  free BSignature ;;;
  if negb (r =? OK) then fail [BPlaintext; BMacCtx; BAad; BIv; BKey] E_CBOR else
  ok <- alloc BCiphertext (zlen ptxt + cs_tag s) ;;
  if negb ok then fail [BPlaintext; BMacCtx; BAad; BIv; BKey] E_NO_MEM else
  '(r, ctxt) <- comp_ciphertext key iv aad ptxt (zlen ptxt + cs_tag s) ;;
  frees [BAad; BIv; BKey] ;;;
  if negb (r =? OK) then fail [BCiphertext; BPlaintext; BMacCtx] E_CRYPTO else
  r <- comp_th_4 m ptxt ;;
  frees [BPlaintext; BMacCtx] ;;;
  if negb (r =? OK) then fail [BCiphertext] E_TH else
  '(r, msg) <- gen_msg_3 ctxt size ;;
  free BCiphertext ;;;
  if negb (r =? OK) then ret (E_CBOR, []) else
  modify (fun c => set_error EC_SUCCESS (set_status SM_COMPLETED (set_oscore_ok true
                     (set_tokens [] c)))) ;;;
  ret (OK, msg).

(** 1576-1852 [edhoc_message_3_process]. *)
Definition message_3_process (nn : bool) (msg : bytes) : M Z :=
  if negb nn || (zlen msg =? 0) then ret E_INVALID_ARG else
  c <- getc ;;
  if negb (in_state SM_WAIT_M3 TH_3 PRK_3E2M c) then ret E_BAD_STATE else
  enter MSG_3 RESPONDER ;;;
  s <- get_suite ;;
  match dec_one_bstr cf_canon msg with
  | None => ret E_MSG3
  | Some ctxt =>
  ok <- alloc BKey (cs_key s) ;; if negb ok then ret E_NO_MEM else
  ok <- alloc BIv (cs_iv s) ;; if negb ok then failp [BKey] E_NO_MEM else
  let al := aad_len_of c in
  ok <- alloc BAad al ;; if negb ok then failp [BIv; BKey] E_NO_MEM else
  '(r, (key, iv, aad)) <- comp_key_iv_aad_3 (cs_key s) (cs_iv s) al ;;
  if negb (r =? OK) then failp [BAad; BIv; BKey] E_CRYPTO else
  let pl := size_sub (zlen ctxt) (cs_tag s) in
  ok <- alloc BPlaintext pl ;; if negb ok then failp [BAad; BIv; BKey] E_NO_MEM else
  '(r, ptxt) <- decrypt_ciphertext_3 key iv aad ctxt pl ;;
  frees [BAad; BIv; BKey] ;;;
  if negb (r =? OK) then failp [BPlaintext] E_CRYPTO else
  '(r, (cr, sig)) <- parse_plaintext_3 ptxt ;;
  if negb (r =? OK) then failp [BPlaintext] E_CBOR else
  ok <- ead_process ;; if negb ok then failp [BPlaintext] E_EAD_PROCESS else
  '(r, cr, pub) <- call_cverify cr ;;
  if negb (r =? OK) then
    modify (set_error EC_UNKNOWN_CRED) ;;; failp [BPlaintext] E_CRED
  else
  r <- comp_prk_4e3m cr pub ;; if negb (r =? OK) then failp [BPlaintext] E_CRYPTO else
  '(r, ml) <- comp_mac_context_length cr ;;
  if negb (r =? OK) then failp [BPlaintext] E_MAC3 else
  ok <- alloc BMacCtx (cf_sizeof_mac + ml) ;;
  if negb ok then failp [BPlaintext] E_NO_MEM else
  '(r, m) <- comp_mac_context cr ml ;;
  if negb (r =? OK) then failp [BMacCtx; BPlaintext] r else
  '(r, n) <- comp_mac_length ;; if negb (r =? OK) then failp [BMacCtx; BPlaintext] E_MAC3 else
  ok <- alloc BMac n ;; if negb ok then failp [BMacCtx; BPlaintext] E_NO_MEM else
  '(r, mac) <- comp_mac m n ;;
  if negb (r =? OK) then failp [BMac; BMacCtx; BPlaintext] E_MAC3 else
  r <- verify_sign_or_mac m pub sig mac ;;
  free BMac ;;;
  if negb (r =? OK) then failp [BMacCtx; BPlaintext] E_SIGMAC3 else
  r <- comp_th_4 m ptxt ;;
  frees [BMacCtx; BPlaintext] ;;;
  if negb (r =? OK) then ret E_TH else
  modify (fun c => set_error EC_SUCCESS (set_status SM_COMPLETED (set_oscore_ok true
                     (set_tokens [] c)))) ;;;
  ret OK
  end.
End Msg3.
