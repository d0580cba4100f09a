(** library/edhoc_message_4.c. *)
From Verif Require Import Monad Common Msg1 Msg2 Msg3.

Section Msg4.
Context {E : env}.

(** 218-262 [prepare_plaintext_4]. *)
Definition prepare_plaintext_4 (size : Z) : M (Z * bytes) :=
  c <- getc ;;
  let l := c_tokens c in
  if 3 <? zlen l then ret (E_TOO_SMALL, []) else
  if zlen l =? 0 then ret (OK, []) else
  e <- encode_tokens tok_present size l ;;
  match e with
  | None => ret (E_CBOR, [])
  | Some b => ret (OK, b)
  end.

(** 275-405 [compute_key_iv_aad_4]. *)
Definition compute_key_iv_aad_4 (key_len iv_len aad_len : Z)
  : M (Z * (bytes * bytes * bytes)) :=
  if (key_len =? 0) || (iv_len =? 0) || (aad_len =? 0) then ret (E_INVALID_ARG, ([], [], []))
  else
  c <- getc ;;
  if negb (c_th_state c =? TH_4) || negb (c_prk_state c =? PRK_4E3M)
  then ret (E_BAD_STATE, ([], [], [])) else
  key_iv_aad L_K_4 L_IV_4 aad_len.

(** 439-464 [gen_msg_4]. *)
Definition gen_msg_4 (ctxt : bytes) (size : Z) : Z * bytes :=
  if (zlen ctxt =? 0) || (size =? 0) then (E_INVALID_ARG, []) else
  match fits size (enc_bstr ctxt) with
  | None => (E_CBOR, [])
  | Some m => (OK, m)
  end.

(** 571-761 [edhoc_message_4_compose]. *)
Definition message_4_compose (nn : bool) (size : Z) : M (Z * bytes) :=
  if negb nn || (size =? 0) then ret (E_INVALID_ARG, []) else
  c <- getc ;;
  if negb (in_state SM_COMPLETED TH_4 PRK_4E3M c) then ret (E_BAD_STATE, []) else
  enter MSG_4 RESPONDER ;;;
  s <- get_suite ;;
  ok <- ead_compose ;; if negb ok then ret (E_EAD_COMPOSE, []) else
  c1 <- getc ;;
  let pl := ead_len_of (c_tokens c1) in
  ok <- alloc BPlaintext pl ;; if negb ok then ret (E_NO_MEM, []) else
  '(r, ptxt) <- prepare_plaintext_4 pl ;;
  if negb (r =? OK) then fail [BPlaintext] E_CBOR else
  ok <- alloc BKey (cs_key s) ;; if negb ok then fail [BPlaintext] E_NO_MEM else
  ok <- alloc BIv (cs_iv s) ;; if negb ok then fail [BKey; BPlaintext] E_NO_MEM else
  let al := aad_len_of c in
  ok <- alloc BAad al ;; if negb ok then fail [BIv; BKey; BPlaintext] E_NO_MEM else
  '(r, (key, iv, aad)) <- compute_key_iv_aad_4 (cs_key s) (cs_iv s) al ;;
  if negb (r =? OK) then fail [BAad; BIv; BKey; BPlaintext] E_CRYPTO else
  ok <- alloc BCiphertext (pl + cs_tag s) ;;
  if negb ok then fail [BAad; BIv; BKey; BPlaintext] E_NO_MEM else
  '(r, ctxt) <- aead_encrypt key iv aad ptxt (pl + cs_tag s) ;;
  if negb (r =? OK) then fail [BCiphertext; BAad; BIv; BKey; BPlaintext] E_CRYPTO else
  frees [BAad; BIv; BKey; BPlaintext] ;;;
  let '(r, msg) := gen_msg_4 ctxt size in
  if negb (r =? OK) then fail [BCiphertext] E_CBOR else
  free BCiphertext ;;;
  modify (fun c => set_error EC_SUCCESS (set_status SM_PERSISTED (set_tokens [] c))) ;;;
  ret (OK, msg).

(** 772-934 [edhoc_message_4_process].  [parse_plaintext_4] (527-557) cannot fail; it stores
    up to three tokens in ctx->ead_token[MAX_NR_OF_EAD_TOKENS + 1]. *)
Definition message_4_process (nn : bool) (msg : bytes) : M Z :=
  if negb nn || (zlen msg =? 0) then ret E_INVALID_ARG else
  c <- getc ;;
  if negb (in_state SM_COMPLETED TH_4 PRK_4E3M c) then ret E_BAD_STATE else
  enter MSG_4 INITIATOR ;;;
  s <- get_suite ;;
  match dec_one_bstr cf_canon msg with
  | None => ret E_MSG4
  | Some ctxt =>
  ok <- alloc BKey (cs_key s) ;; if negb ok then ret E_NO_MEM else
  ok <- alloc BIv (cs_iv s) ;; if negb ok then failp [BKey] E_NO_MEM else
  let al := aad_len_of c in
  ok <- alloc BAad al ;; if negb ok then failp [BIv; BKey] E_NO_MEM else
  '(r, (key, iv, aad)) <- compute_key_iv_aad_4 (cs_key s) (cs_iv s) al ;;
  if negb (r =? OK) then failp [BAad; BIv; BKey] E_CRYPTO else
  let pl := size_sub (zlen ctxt) (cs_tag s) in
  ok <- alloc BPlaintext pl ;; if negb ok then failp [BAad; BIv; BKey] E_NO_MEM else
  '(r, ptxt) <- aead_decrypt key iv aad ctxt pl ;;
  if negb (r =? OK) then failp [BPlaintext; BAad; BIv; BKey] E_CRYPTO else
  frees [BAad; BIv; BKey] ;;;
  let l := dec_plaintext_4 cf_canon ptxt in
  check (zlen l <=? cf_max_ead + 1) UbWrite ;;;
  modify (set_tokens l) ;;;
  ok <- ead_process ;; if negb ok then failp [BPlaintext] E_EAD_PROCESS else
  free BPlaintext ;;;
  modify (fun c => set_error EC_SUCCESS (set_status SM_PERSISTED (set_tokens [] c))) ;;;
  ret OK
  end.
End Msg4.
