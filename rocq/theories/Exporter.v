(** library/edhoc_exporter.c. *)
From Verif Require Import Monad Common Msg1 Msg2.

Section Exporter.
Context {E : env}.

(** 98-156, 174-229: like [kdf] (Msg2.v), but the result goes straight into [ctx->prk], also
    when the callback fails; the size passed is [ctx->prk_len] while [info] names the hash
    length. *)
Definition kdf_into_prk (len label : Z) (context : M bytes) : M Z :=
  s <- get_suite ;;
  ok <- alloc BInfo len ;;
  if negb ok then ret E_NO_MEM else
  cx <- context ;;
  match fits len (enc_info label cx (u32 (cs_hash s))) with
  | None => free BInfo ;;; ret E_CBOR
  | Some info =>
  k <- get_prk ;;
  '(r, kid) <- call_import KT_EXPAND k ;;
  if negb (r =? OK) then free BInfo ;;; ret E_CRYPTO else
  c <- getc ;;
  '(r, out) <- call_expand kid info (c_prk_len c) ;;
  put_prk out ;;;
  call_destroy kid ;;;
  free BInfo ;;;
  if negb (r =? OK) then ret E_CRYPTO else
  modify (set_prk_state PRK_OUT) ;;; ret OK
  end.

(** 82-156 [compute_prk_out].  The scratch buffer is sized with the label of IV_3. *)
Definition compute_prk_out : M Z :=
  c <- getc ;;
  if negb (c_th_state c =? TH_4) || negb (c_prk_state c =? PRK_4E3M) then ret E_BAD_STATE else
  s <- get_suite ;;
  kdf_into_prk (int_mem_req L_IV_3 + (c_th_len c + bstr_oh (c_th_len c))
                + int_mem_req (i32 (cs_hash s))) L_PRK_OUT get_th.

(** 158-229 [compute_new_prk_out]. *)
Definition compute_new_prk_out (entropy : bytes) : M Z :=
  c <- getc ;;
  if negb (c_prk_state c =? PRK_OUT) then ret E_BAD_STATE else
  s <- get_suite ;;
  kdf_into_prk (int_mem_req L_NEW_PRK_OUT + (zlen entropy + bstr_oh (zlen entropy))
                + int_mem_req (i32 (cs_hash s))) L_NEW_PRK_OUT (ret entropy).

(** 231-303 [compute_prk_exporter]: [n] is the size of the result buffer (hash length). *)
Definition compute_prk_exporter (n : Z) : M (Z * bytes) :=
  c <- getc ;;
  if negb (c_prk_state c =? PRK_OUT) then ret (E_BAD_STATE, []) else
  s <- get_suite ;;
  kdf false (int_mem_req L_PRK_EXPORTER + bstr_oh 0 + int_mem_req (i32 (cs_hash s)))
      L_PRK_EXPORTER (ret []) get_prk n.

(** 345-352: the labels an application may use. *)
Definition label_allowed (label : Z) : bool :=
  (label =? 0) || (label =? 1) || ((32768 <=? label) && (label <=? 65535)).

(** 314-427 [edhoc_export_prk_exporter].  [n] is the length of the caller's buffer; the second
    component is what was written to it (also by a failing callback). *)
Definition export_prk_exporter (nn : bool) (label n : Z) : M (Z * bytes) :=
  if negb nn || (65535 <? label) || (n =? 0) then ret (E_INVALID_ARG, []) else
  if negb (label_allowed label) then ret (E_BAD_STATE, []) else
  c <- getc ;;
  if (SM_PERSISTED <? c_status c) || (c_prk_state c <? PRK_4E3M) then ret (E_BAD_STATE, []) else
  s <- get_suite ;;
  r <- (if c_prk_state c =? PRK_4E3M then compute_prk_out else ret OK) ;;
  if negb (r =? OK) then ret (E_PRK, []) else
  ok <- alloc BPrkExp (cs_hash s) ;;
  if negb ok then ret (E_NO_MEM, []) else
  '(r, pe) <- compute_prk_exporter (cs_hash s) ;;
  if negb (r =? OK) then free BPrkExp ;;; ret (E_PRK, []) else
  let len := int_mem_req label + bstr_oh 0 + int_mem_req (i32 (cs_hash s)) in
  ok <- alloc BInfo len ;;
  if negb ok then free BPrkExp ;;; ret (E_NO_MEM, []) else
  match fits len (enc_info label [] (u32 n)) with
  | None => free BInfo ;;; free BPrkExp ;;; ret (E_CBOR, [])
  | Some info =>
  '(r, kid) <- call_import KT_EXPAND pe ;;
  if negb (r =? OK) then free BInfo ;;; free BPrkExp ;;; ret (E_CRYPTO, []) else
  free BPrkExp ;;;
  '(r, out) <- call_expand kid info n ;;
  call_destroy kid ;;;
  free BInfo ;;;
  if negb (r =? OK) then ret (E_CRYPTO, out) else ret (OK, out)
  end.

(** 429-470 [edhoc_export_key_update]. *)
Definition export_key_update (nn : bool) (entropy : bytes) : M Z :=
  if negb nn || (zlen entropy =? 0) then ret E_INVALID_ARG else
  c <- getc ;;
  if (c_status c <? SM_COMPLETED) || (c_prk_state c <? PRK_4E3M) then ret E_BAD_STATE else
  modify (set_status SM_ABORTED) ;;;
  r <- (if c_prk_state c =? PRK_4E3M then compute_prk_out else ret OK) ;;
  if negb (r =? OK) then ret E_PRK else
  r <- compute_new_prk_out entropy ;;
  if negb (r =? OK) then ret E_PRK else
  modify (fun c' => set_oscore_ok true (set_status (c_status c) c')) ;;;
  ret OK.

(** 546-623: an OSCORE identifier from a connection identifier, into [size] bytes. *)
Definition oscore_id (i : conn_id) (size : Z) : Z * bytes :=
  if cid_type i =? CID_INT then
    match fits size (enc_int (cid_int i)) with Some b => (OK, b) | None => (E_CBOR, []) end
  else if cid_type i =? CID_BSTR then
    if size <? zlen (cid_bstr i) then (E_TOO_SMALL, []) else (OK, cid_bstr i)
  else (E_NOT_PERMITTED, []).

(** What the OSCORE export writes: master secret, master salt, sender and recipient id. *)
Record oscore := OSC { os_secret : bytes; os_salt : bytes; os_sid : bytes; os_rid : bytes }.
Definition osc0 : oscore := OSC [] [] [] [].

(** 479-627 [edhoc_export_oscore_session]: sizes of the four buffers. *)
Definition export_oscore_session (nn : bool) (n_sec n_salt n_sid n_rid : Z) : M (Z * oscore) :=
  if negb nn || (n_sec =? 0) || (n_salt =? 0) || (n_sid =? 0) || (n_rid =? 0)
  then ret (E_INVALID_ARG, osc0) else
  c <- getc ;;
  if negb (c_oscore_ok c) then ret (E_BAD_STATE, osc0) else
  if (c_status c <? SM_COMPLETED) || (c_prk_state c <? PRK_4E3M)
  then ret (E_BAD_STATE, osc0) else
  modify (fun c' => set_oscore_ok false (set_status SM_ABORTED c')) ;;;
  '(r, sec) <- export_prk_exporter true 0 n_sec ;;
  if negb (r =? OK) then ret (E_PRK, OSC sec [] [] []) else
  '(r, salt) <- export_prk_exporter true 1 n_salt ;;
  if negb (r =? OK) then ret (E_PRK, OSC sec salt [] []) else
  let '(r, sid) := oscore_id (c_peer_cid c) n_sid in
  if negb (r =? OK) then ret (r, OSC sec salt [] []) else
  let '(r, rid) := oscore_id (c_cid c) n_rid in
  if negb (r =? OK) then ret (r, OSC sec salt sid []) else
  modify (set_status (c_status c)) ;;;
  ret (OK, OSC sec salt sid rid).
End Exporter.
