(** library/edhoc_message_1.c.

    Compose returns (return value, bytes written to the caller's buffer); on failure nothing is
    reported as written.  [nn] says that every pointer argument is non-NULL. *)
From Verif Require Import Monad Common.

Section Msg1.
Context {E : env}.

(** Protocol-state guard shared by all message calls. *)
Definition in_state (st th prk : Z) (c : ctx) : bool :=
  (c_status c =? st) && (c_th_state c =? th) && (c_prk_state c =? prk).
(** The four assignments every message call makes once its guard passed
    (e.g. message_1.c 84-87). *)
Definition enter (msg role : Z) : M unit :=
  modify (fun c => set_role role (set_message msg (set_error EC_UNSPECIFIED
                     (set_status SM_ABORTED c)))).
(** Values of the first [csuite_len] configured suites. *)
Definition suite_values (c : ctx) : list Z :=
  map (fun i => cs_value (nth i (c_csuites c) csuite0)) (seq 0 (Z.to_nat (c_csuite_len c))).
Definition method_values (c : ctx) : list Z :=
  map (fun i => nth i (c_methods c) 0) (seq 0 (Z.to_nat (c_method_len c))).

(** message_1.c 179-211 and the same block in message_2.c 1499-1525, message_3.c 1223-1249,
    message_4.c 595-620: ask the application for EAD.  The callback fills [ead_token] and
    [nr_of_ead_tokens]. Result: success? *)
Definition ead_compose : M bool :=
  c <- getc ;;
  match f_compose (c_ead c) with
  | Some f =>
    if cf_max_ead =? 0 then ret true else
    '(r, l) <- call_compose f (c_message c) cf_max_ead ;;
    modify (set_tokens l) ;;;
    ret ((r =? OK) && (zlen l <=? cf_max_ead))
  | None => ret true
  end.

(** hash of [input] into ctx->th with th_len = hash_length (message_1.c 251-262 etc.). *)
Definition hash_into_th (n : Z) (input : bytes) : M (Z * Z) :=
  modify (set_th_len n) ;;;
  '(r, out) <- call_hash input n ;;
  put_th out ;;;
  ret (r, zlen out).

(** 67-288 [edhoc_message_1_compose]. *)
Definition message_1_compose (nn : bool) (size : Z) : M (Z * bytes) :=
  if negb nn || (size =? 0) then ret (E_INVALID_ARG, []) else
  c <- getc ;;
  if negb (in_state SM_START TH_INVALID PRK_INVALID c) then ret (E_BAD_STATE, []) else
  enter MSG_1 INITIATOR ;;;
  if c_csuite_len c =? 0 then ret (E_BAD_STATE, []) else
  modify (set_csuite_idx (c_csuite_len c - 1)) ;;;
  s <- get_suite ;;
  modify (set_chosen_method (nth 0 (c_methods c) 0)) ;;;
  '(r, kid) <- call_import KT_MAKE_KEY_PAIR [] ;;
  if negb (r =? OK) then ret (E_EPH_DH, []) else
  ok <- alloc BDhPub (cs_ecc s) ;;
  if negb ok then ret (E_NO_MEM, []) else
  '(r, priv, pub) <- call_mkpair kid cf_max_ecc (cs_ecc s) ;;
  put_dh_priv priv ;;;
  call_destroy kid ;;;
  if negb (r =? OK) || negb (cs_ecc s =? zlen priv) || negb (cs_ecc s =? zlen pub) then
    free BDhPub ;;; ret (E_EPH_DH, [])
  else
  modify (set_dh_priv_len (zlen priv)) ;;;
  if negb (c_csuite_len c =? 1) && (3 <? c_csuite_len c) then
    free BDhPub ;;; ret (E_TOO_SMALL, [])
  else
  let su := if c_csuite_len c =? 1 then SuInt (cs_value s) else SuList (suite_values c) in
  if negb ((cid_type (c_cid c) =? CID_INT) || (cid_type (c_cid c) =? CID_BSTR)) then
    free BDhPub ;;; ret (E_NOT_PERMITTED, [])
  else
  let ci := if cid_type (c_cid c) =? CID_INT then CidInt (cid_int (c_cid c))
            else CidBstr (cid_bstr (c_cid c)) in
  ok <- ead_compose ;;
  if negb ok then free BDhPub ;;; ret (E_EAD_COMPOSE, []) else
  c2 <- getc ;;
  let l := c_tokens c2 in
  check (zlen l <=? 3) UbWrite ;;;
  enc <- match enc_message_1 (nth 0 (c_methods c) 0) su pub ci None with
         | None => ret None
         | Some pre =>
           if zlen l =? 0 then ret (fits size pre)
           else e <- encode_tokens (fun _ => true) (size - zlen pre) l ;;
                ret (match e with Some eb => fits size (pre ++ eb) | None => None end)
         end ;;
  match enc with
  | None => free BDhPub ;;; ret (E_CBOR, [])
  | Some msg =>
  free BDhPub ;;;
  '(r, n) <- hash_into_th (cs_hash s) msg ;;
  if negb (r =? OK) || negb (cs_hash s =? n) then ret (E_CRYPTO, []) else
  modify (fun c => set_error EC_SUCCESS (set_status SM_WAIT_M2 (set_th_state TH_1
                     (set_tokens [] c)))) ;;;
  ret (OK, msg)
  end.

(** 301-575 [edhoc_message_1_process]. *)
Definition message_1_process (nn : bool) (msg : bytes) : M Z :=
  if negb nn || (zlen msg =? 0) then ret E_INVALID_ARG else
  c <- getc ;;
  if negb (in_state SM_START TH_INVALID PRK_INVALID c) then ret E_BAD_STATE else
  enter MSG_1 RESPONDER ;;;
  let '(dok, d, rest) := dec_message_1 cf_canon msg in
  (* [len] keeps its initial value 0 when decoding fails *)
  let len := if dok then zlen msg - zlen rest else 0 in
  if negb dok && (zlen msg <=? len) then ret E_CBOR else
  if c_csuite_len c =? 0 then ret E_BAD_STATE else
  modify (set_csuite_idx (c_csuite_len c - 1)) ;;;
  s <- get_suite ;;
  if negb (existsb (fun m => m =? m1_method d) (method_values c)) then ret E_MSG1 else
  modify (set_chosen_method (m1_method d)) ;;;
  (* 3b. cipher suite *)
  r <- (if m1_su_choice d =? 1 then
          check (c_peer_csuite_len c <? cf_max_suites) UbWrite ;;;
          modify (fun c => set_peer_csuite_len 1 (set_peer_csuites
                    (take (c_peer_csuite_len c) (c_peer_csuites c ++ zeros (c_peer_csuite_len c))
                     ++ [m1_su_int d]) c)) ;;;
          if negb (cs_value s =? m1_su_int d) then
            modify (set_error EC_WRONG_SUITE) ;;; ret E_MSG1
          else ret OK
        else if m1_su_choice d =? 0 then
          if zlen (m1_su_list d) =? 0 then
            modify (set_error EC_WRONG_SUITE) ;;; ret E_MSG1
          else if cf_max_suites <? zlen (m1_su_list d) then ret E_TOO_SMALL
          else
          modify (fun c => set_peer_csuite_len (zlen (m1_su_list d))
                             (set_peer_csuites (blit (c_peer_csuites c) (m1_su_list d)) c)) ;;;
          if negb (cs_value s =? last (m1_su_list d) 0) then
            modify (set_error EC_WRONG_SUITE) ;;; ret E_MSG1
          else ret OK
        else ret E_MSG1) ;;
  if negb (r =? OK) then ret r else
  (* 3c. G_X *)
  if negb (zs_len (m1_gx d) =? cs_ecc s) then ret E_MSG1 else
  modify (set_dh_peer_len (zs_len (m1_gx d))) ;;;
  gx <- rd_ptr (cs_ecc s) (zs_ptr (m1_gx d)) ;;
  put_dh_peer gx ;;;
  (* 3d. C_I *)
  r <- (if m1_ci_choice d =? 1 then
          if (m1_ci_int d <? -24) || (23 <? m1_ci_int d) then ret E_MSG1
          else modify (fun c => set_peer_cid
                 (CID CID_INT (i8 (m1_ci_int d)) (cid_bstr (c_peer_cid c))) c) ;;; ret OK
        else if m1_ci_choice d =? 0 then
          if cf_max_cid + 1 <? zs_len (m1_ci_bstr d) then ret E_MSG1
          else b <- rd_ptr (zs_len (m1_ci_bstr d)) (zs_ptr (m1_ci_bstr d)) ;;
               modify (fun c => set_peer_cid (CID CID_BSTR (cid_int (c_peer_cid c)) b) c) ;;;
               ret OK
        else ret E_MSG1) ;;
  if negb (r =? OK) then ret r else
  (* 4. EAD *)
  r <- match (if m1_ead_present d then f_process (c_ead c) else None) with
       | Some f =>
         if cf_max_ead <? zlen (m1_ead d) then ret E_TOO_SMALL else
         modify (set_tokens (m1_ead d)) ;;;
         r <- call_process f MSG_1 (m1_ead d) ;;
         modify (set_tokens []) ;;;
         if negb (r =? OK) then ret E_EAD_PROCESS else ret OK
       | None => ret OK
       end ;;
  if negb (r =? OK) then ret r else
  (* 5. H(message_1) *)
  '(r, n) <- hash_into_th (cs_hash s) msg ;;
  if negb (r =? OK) || negb (cs_hash s =? n) then ret E_CRYPTO else
  modify (fun c => set_error EC_SUCCESS (set_status SM_RECEIVED_M1 (set_th_state TH_1 c))) ;;;
  ret OK.
End Msg1.
