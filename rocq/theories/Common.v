(** library/edhoc_common.c: size estimates, MAC context, MAC, signatures. *)
From Verif Require Import Monad.

(** ** Size estimates *)

(** 572-584. *)
Definition int_mem_req (v : Z) : Z :=
  if (-24 <=? v) && (v <=? 23) then 1
  else if (-256 <=? v) && (v <=? 255) then 2
  else if (-65536 <=? v) && (v <=? 65535) then 3
  else 4.
(** 586-599 and 601-614. *)
Definition tstr_oh (n : Z) : Z :=
  if n <=? 23 then 1 else if n <=? 255 then 2 else if n <=? 65535 then 3
  else if n <=? 4294967295 then 4 else 5.
Definition bstr_oh (n : Z) : Z :=
  if n <=? 23 then 1 else if n <=? 255 then 2 else if n <=? 65535 then 3
  else if n <=? 4294967295 then 4 else 5.
(** 616-621. *)
Definition map_oh (_ : Z) : Z := 3.
(** 623-633. *)
Definition array_oh (n : Z) : Z :=
  if n <? 24 then 1 else if n <? 256 then 2 else if n <? 65535 then 3 else 4.

(** 175-178. *)
Definition is_one_byte_int (v : Z) : bool := int_mem_req v =? 1.

(** 180-203 [comp_cid_len]: return value and length. *)
Definition comp_cid_len (i : conn_id) : Z * Z :=
  if cid_type i =? CID_INT then (OK, 1)
  else if cid_type i =? CID_BSTR then (OK, zlen (cid_bstr i) + bstr_oh (zlen (cid_bstr i)))
  else (E_NOT_PERMITTED, 0).

(** Union member selected by the label; a mismatch is undefined behaviour. *)
Definition as_any (b : cred_body) := match b with
  | CAny i c e ce cr => Some (i, c, e, ce, cr) | _ => None end.
Definition as_kid (b : cred_body) := match b with
  | CKid cr ic e ki kb => Some (cr, ic, e, ki, kb) | _ => None end.
Definition as_chain (b : cred_body) := match b with CChain l => Some l | _ => None end.
Definition as_hash (b : cred_body) := match b with
  | CHash ct fp e ai ab => Some (ct, fp, e, ai, ab) | _ => None end.

(** Sum of [cert_len + overhead] over a chain (243-249). *)
Definition certs_len (l : list bytes) : Z :=
  zsum (map (fun b => zlen b + bstr_oh (zlen b)) l).

(** 205-282 [comp_id_cred_len]. *)
Definition comp_id_cred_len (cr : creds) : M (Z * Z) :=
  if cr_label cr =? COSE_ANY then
    '(i, _, _, _, _) <- need (as_any (cr_body cr)) UbUnion ;; ret (OK, zlen i)
  else if cr_label cr =? COSE_KID then
    '(_, _, e, ki, kb) <- need (as_kid (cr_body cr)) UbUnion ;;
    if e =? ENC_INT then ret (OK, map_oh 1 + int_mem_req ki)
    else if e =? ENC_BSTR then ret (OK, map_oh 1 + zlen kb + bstr_oh (zlen kb))
    else ret (E_NOT_PERMITTED, 0)
  else if cr_label cr =? COSE_CHAIN then
    l <- need (as_chain (cr_body cr)) UbUnion ;;
    ret (OK, map_oh 1 + certs_len l + (if 1 <? zlen l then array_oh (zlen l) else 0))
  else if cr_label cr =? COSE_HASH then
    '(_, fp, e, ai, ab) <- need (as_hash (cr_body cr)) UbUnion ;;
    if e =? ENC_INT then
      ret (OK, map_oh 1 + array_oh 1 + int_mem_req ai + zlen fp + bstr_oh (zlen fp))
    else if e =? ENC_BSTR then
      ret (OK, map_oh 1 + array_oh 1 + (zlen ab + bstr_oh (zlen ab)) + zlen fp
               + bstr_oh (zlen fp))
    else ret (E_NOT_PERMITTED, 0)
  else ret (E_NOT_SUPPORTED, 0).

(** 284-296 [comp_th_len]. *)
Definition comp_th_len (n : Z) : Z * Z :=
  if n =? 0 then (E_INVALID_ARG, 0) else (OK, n + bstr_oh n).

(** 298-334 [comp_cred_len]. An x5chain with no certificate reads a zero-initialised
    [cert_len[0]]. *)
Definition comp_cred_len (cr : creds) : M (Z * Z) :=
  if cr_label cr =? COSE_ANY then
    '(_, _, _, _, ca) <- need (as_any (cr_body cr)) UbUnion ;; ret (OK, zlen ca)
  else if cr_label cr =? COSE_KID then
    '(ck, _, _, _, _) <- need (as_kid (cr_body cr)) UbUnion ;;
    ret (OK, zlen ck + bstr_oh (zlen ck))
  else if cr_label cr =? COSE_CHAIN then
    l <- need (as_chain (cr_body cr)) UbUnion ;;
    let ct := nth 0 l [] in ret (OK, zlen ct + bstr_oh (zlen ct))
  else if cr_label cr =? COSE_HASH then
    '(ct, _, _, _, _) <- need (as_hash (cr_body cr)) UbUnion ;;
    ret (OK, zlen ct + bstr_oh (zlen ct))
  else ret (E_NOT_SUPPORTED, 0).

(** 336-350 [comp_ead_len]; message_4.c 198-216 is the same sum. *)
Definition ead_len_of (l : list token) : Z :=
  zsum (map (fun t => int_mem_req (tk_label t) + zs_len (tk_val t)
                      + bstr_oh (zs_len (tk_val t))) l).

(** ** MAC context *)

(** [struct mac_context] (include/edhoc_common.h): the encoded parts in buffer order and the
    compact identifier. *)
Record macctx := MC {
  mc_cid : bytes; mc_id : bytes; mc_comp : bool; mc_ctype : Z; mc_cint : Z; mc_cbstr : bytes;
  mc_th : bytes; mc_cred : bytes; mc_is_ead : bool; mc_ead : bytes }.
(** [buf] up to [buf_len]. *)
Definition mc_buf (m : macctx) : bytes := mc_cid m ++ mc_id m ++ mc_th m ++ mc_cred m ++ mc_ead m.
(** From [th], [th_len + cred_len + ead_len] bytes. *)
Definition mc_aad (m : macctx) : bytes := mc_th m ++ mc_cred m ++ mc_ead m.

(** EAD items from tokens.  [p] decides [ead_value_present].  zcbor checks the room for a
    string before copying it, so an over-long claimed length is read only when it fits. *)
Definition tok_present (t : token) : bool :=
  match zs_ptr (tk_val t) with None => false | Some _ => true end.
Definition tok_size (p : token -> bool) (t : token) : Z :=
  zlen (enc_int (tk_label t))
  + (if p t then zlen (enc_head 2 (zs_len (tk_val t))) + zs_len (tk_val t) else 0).
(** Bytes [0..n) behind an EAD value pointer. *)
Definition rd_tok (n : Z) (p : option bytes) : M bytes :=
  if n <=? 0 then ret [] else
  match p with
  | None => fault UbNull
  | Some b => check (n <=? zlen b) UbEadRead ;;; ret (take n b)
  end.
Fixpoint read_toks (p : token -> bool) (l : list token) : M (list ead_item) :=
  match l with
  | [] => ret []
  | t :: l' =>
    v <- (if p t then b <- rd_tok (zs_len (tk_val t)) (zs_ptr (tk_val t)) ;; ret (Some b)
          else ret None) ;;
    r <- read_toks p l' ;; ret ((tk_label t, v) :: r)
  end.
(** Filling a generated [struct ead] (three slots) and encoding it into [cap] bytes. *)
Definition encode_tokens (p : token -> bool) (cap : Z) (l : list token) : M (option bytes) :=
  check (zlen l <=? 3) UbWrite ;;;
  if zlen l =? 0 then ret None
  else if cap <? zsum (map (tok_size p) l) then ret None
  else items <- read_toks p l ;; ret (enc_ead items).

Section Common.
Context {E : env}.

(** 352-439 [kid_compact_encoding]: return value, encode type, integer, byte string. *)
Definition kid_compact_encoding (cr : creds) : M (Z * (Z * Z * bytes)) :=
  '(_, is_cbor, e, ki, kb) <- need (as_kid (cr_body cr)) UbUnion ;;
  if e =? ENC_INT then
    if is_cbor then ret (OK, (ENC_INT, ki, []))
    else match fits 4 (enc_int ki) with
         | Some b => ret (OK, (ENC_INT, unle4 (b ++ zeros 4), []))
         | None => ret (E_CBOR, (ENC_INT, 0, []))
         end
  else if e =? ENC_BSTR then
    if is_cbor then
      if zlen kb =? 1 then
        let val := nth 0 kb 0 in
        match dec_one_int cf_canon (le4 val) with
        | None => ret (E_CBOR, (ENC_BSTR, 0, []))
        | Some r =>
          if is_one_byte_int r then ret (OK, (ENC_INT, val, []))
          else check (zlen kb <=? cf_max_kid + 1) UbWrite ;;; ret (OK, (ENC_BSTR, 0, kb))
        end
      else check (zlen kb <=? cf_max_kid + 1) UbWrite ;;; ret (OK, (ENC_BSTR, 0, kb))
    else match fits cf_max_kid (enc_bstr kb) with
         | Some b => ret (OK, (ENC_BSTR, 0, b))
         | None => ret (E_CBOR, (ENC_BSTR, 0, []))
         end
  else ret (E_NOT_PERMITTED, (0, 0, [])).

(** The generated [struct id_cred_x] filled from the credentials (826-934); [inl] is an
    error return, [inr None] the ANY label. *)
Definition id_cred_of (cr : creds) : M (Z + option id_cred) :=
  if cr_label cr =? COSE_ANY then ret (inr None)
  else if cr_label cr =? COSE_KID then
    '(_, _, e, ki, kb) <- need (as_kid (cr_body cr)) UbUnion ;;
    if e =? ENC_INT then ret (inr (Some (IdKid (KidInt ki))))
    else if e =? ENC_BSTR then ret (inr (Some (IdKid (KidBstr kb))))
    else ret (inl E_NOT_PERMITTED)
  else if cr_label cr =? COSE_CHAIN then
    l <- need (as_chain (cr_body cr)) UbUnion ;;
    if zlen l =? 0 then ret (inl E_BAD_STATE)
    else if zlen l =? 1 then ret (inr (Some (IdChain (ChOne (nth 0 l [])))))
    else if 3 <? zlen l then ret (inl E_TOO_SMALL)
    else ret (inr (Some (IdChain (ChList l))))
  else if cr_label cr =? COSE_HASH then
    '(_, fp, e, ai, ab) <- need (as_hash (cr_body cr)) UbUnion ;;
    if e =? ENC_INT then ret (inr (Some (IdHash (AlgInt ai) fp)))
    else if e =? ENC_BSTR then ret (inr (Some (IdHash (AlgTstr ab) fp)))
    else ret (inl E_NOT_PERMITTED)
  else ret (inl E_CRED).

(** 1026-1073: CRED_x bytes written after TH_x; [cap] is the estimate. *)
Definition cred_bytes (cr : creds) (cap : Z) : M (option bytes) :=
  if cr_label cr =? COSE_ANY then
    '(_, _, _, _, ca) <- need (as_any (cr_body cr)) UbUnion ;; ret (Some ca)
  else if cr_label cr =? COSE_KID then
    '(ck, is_cbor, _, _, _) <- need (as_kid (cr_body cr)) UbUnion ;;
    if is_cbor then ret (Some ck) else ret (fits cap (enc_bstr ck))
  else if cr_label cr =? COSE_CHAIN then
    l <- need (as_chain (cr_body cr)) UbUnion ;; ret (fits cap (enc_bstr (nth 0 l [])))
  else
    '(ct, _, _, _, _) <- need (as_hash (cr_body cr)) UbUnion ;; ret (fits cap (enc_bstr ct)).

(** The connection identifier authenticated in message 2 (664-683, 756-771). *)
Definition mac_cid (c : ctx) : conn_id :=
  if c_role c =? INITIATOR then c_peer_cid c else c_cid c.

Definition role_ok (c : ctx) : bool := (c_role c =? INITIATOR) || (c_role c =? RESPONDER).

(** 635-721 [edhoc_comp_mac_context_length]. *)
Definition comp_mac_context_length (cr : creds) : M (Z * Z) :=
  c <- getc ;;
  if negb (role_ok c) then ret (E_BAD_STATE, 0)
  else if (c_message c <? MSG_1) || (MSG_3 <? c_message c) then ret (E_BAD_STATE, 0)
  else
  let '(r0, l0) := if c_message c =? MSG_2 then comp_cid_len (mac_cid c) else (OK, 0) in
  if negb (r0 =? OK) then ret (r0, 0) else
  '(r1, l1) <- comp_id_cred_len cr ;;
  if negb (r1 =? OK) then ret (r1, 0) else
  let '(r2, l2) := comp_th_len (c_th_len c) in
  if negb (r2 =? OK) then ret (r2, 0) else
  '(r3, l3) <- comp_cred_len cr ;;
  if negb (r3 =? OK) then ret (r3, 0) else
  ret (OK, l0 + l1 + l2 + l3 + ead_len_of (c_tokens c)).

(** 798-808: encoding a connection identifier into [cap] bytes; [None] is failure. *)
Definition encode_cid (i : conn_id) (cap : Z) : option bytes :=
  if cid_type i =? CID_INT then fits cap (enc_int (cid_int i))
  else fits cap (enc_bstr (cid_bstr i)).

(** 723-1137 [edhoc_comp_mac_context] with [buf_len] bytes of room. *)
Definition comp_mac_context (cr : creds) (buf_len : Z) : M (Z * macctx) :=
  let bad r := ret (r, MC [] [] false 0 0 [] [] [] false []) in
  c <- getc ;;
  if negb (role_ok c) then bad E_BAD_STATE
  else if (c_message c <? MSG_1) || (MSG_3 <? c_message c) then bad E_BAD_STATE
  else if (c_message c =? MSG_2) && negb (c_th_state c =? TH_2) then bad E_BAD_STATE
  else if (c_message c =? MSG_3) && negb (c_th_state c =? TH_3) then bad E_BAD_STATE
  else
  (* C_R *)
  let '(r0, l0) := if c_message c =? MSG_2 then comp_cid_len (mac_cid c) else (OK, 0) in
  if negb (r0 =? OK) then bad r0 else
  match (if c_message c =? MSG_2 then encode_cid (mac_cid c) l0 else Some []) with
  | None => bad E_CBOR
  | Some cidb =>
  (* ID_CRED *)
  '(r1, l1) <- comp_id_cred_len cr ;;
  if negb (r1 =? OK) then bad r1 else
  ic <- id_cred_of cr ;;
  match ic with
  | inl e => bad e
  | inr o =>
  idb <- match o with
         | None => '(i, _, _, _, _) <- need (as_any (cr_body cr)) UbUnion ;; ret (Some i)
         | Some i => ret (match enc_id_cred i with Some b => fits l1 b | None => None end)
         end ;;
  match idb with
  | None => bad E_CBOR
  | Some idb =>
  (* compact identifier *)
  '(rc, (comp, (ct, ci, cb))) <-
     (if cr_label cr =? COSE_KID then
        '(r, x) <- kid_compact_encoding cr ;;
        if negb (r =? OK) then ret (E_CBOR, (true, x)) else ret (OK, (true, x))
      else if cr_label cr =? COSE_ANY then
        '(_, is_comp, e, ce, _) <- need (as_any (cr_body cr)) UbUnion ;;
        if is_comp then
          if e =? ENC_INT then
            check (zlen ce <=? 4) UbWrite ;;;
            ret (OK, (true, (e, unle4 (ce ++ zeros 4), [])))
          else if e =? ENC_BSTR then
            check (zlen ce <=? cf_max_kid + 1) UbWrite ;;; ret (OK, (true, (e, 0, ce)))
          else ret (E_NOT_PERMITTED, (true, (e, 0, [])))
        else ret (OK, (false, (0, 0, [])))
      else ret (OK, (false, (0, 0, [])))) ;;
  if negb (rc =? OK) then bad rc else
  (* TH *)
  let '(r2, l2) := comp_th_len (c_th_len c) in
  if negb (r2 =? OK) then bad r2 else
  th <- get_th ;;
  match fits l2 (enc_bstr th) with
  | None => bad E_CBOR
  | Some thb =>
  (* CRED *)
  '(r3, l3) <- comp_cred_len cr ;;
  if negb (r3 =? OK) then bad r3 else
  crb <- cred_bytes cr l3 ;;
  match crb with
  | None => bad E_CBOR
  | Some crb =>
  (* EAD *)
  eb <- (if zlen (c_tokens c) =? 0 then ret (Some [])
         else encode_tokens tok_present (ead_len_of (c_tokens c)) (c_tokens c)) ;;
  match eb with
  | None => bad E_CBOR
  | Some eb =>
  let m := MC cidb idb comp ct ci cb thb crb (negb (zlen (c_tokens c) =? 0)) eb in
  if buf_len <? zlen (mc_buf m) then bad E_TOO_SMALL else ret (OK, m)
  end end end end end end.

(** Who signs: message 2 is signed in methods 0 and 2, message 3 in methods 0 and 1
    (switches at 1148-1192, 1312-1354, 1369-1411, 1428-1480).  [None]: no case matched. *)
Definition signs (msg meth : Z) : option bool :=
  if msg =? MSG_2 then
    if (meth =? 0) || (meth =? 2) then Some true
    else if (meth =? 1) || (meth =? 3) then Some false else None
  else if msg =? MSG_3 then
    if (meth =? 0) || (meth =? 1) then Some true
    else if (meth =? 2) || (meth =? 3) then Some false else None
  else None.

(** 1139-1194 [edhoc_comp_mac_length]. *)
Definition comp_mac_length : M (Z * Z) :=
  c <- getc ;;
  if negb (role_ok c) then ret (E_BAD_STATE, 0) else
  s <- get_suite ;;
  match signs (c_message c) (c_chosen_method c) with
  | Some true => ret (OK, cs_hash s)
  | Some false => ret (OK, cs_mac s)
  | None => ret (E_NOT_PERMITTED, 0)
  end.

(** 1299-1355 [edhoc_comp_sign_or_mac_length]. *)
Definition comp_sign_or_mac_length : M (Z * Z) :=
  c <- getc ;;
  if negb (role_ok c) then ret (E_BAD_STATE, 0) else
  s <- get_suite ;;
  match signs (c_message c) (c_chosen_method c) with
  | Some true => ret (OK, cs_sign s)
  | Some false => ret (OK, cs_mac s)
  | None => ret (E_NOT_PERMITTED, 0)
  end.

(** 1196-1297 [edhoc_comp_mac]. *)
Definition comp_mac (m : macctx) (mac_len : Z) : M (Z * bytes) :=
  if mac_len =? 0 then ret (E_INVALID_ARG, []) else
  c <- getc ;;
  if (c_message c <? MSG_1) || (MSG_3 <? c_message c) then ret (E_BAD_STATE, [])
  else if (c_message c =? MSG_2) && negb (c_prk_state c =? PRK_3E2M) then ret (E_BAD_STATE, [])
  else if (c_message c =? MSG_3) && negb (c_prk_state c =? PRK_4E3M) then ret (E_BAD_STATE, [])
  else
  let label := if c_message c =? MSG_2 then L_MAC_2
               else if c_message c =? MSG_3 then L_MAC_3 else 0 in
  let n := zlen (mc_buf m) in
  let len := int_mem_req label + (n + bstr_oh n) + int_mem_req (i32 mac_len) in
  ok <- alloc BInfo len ;;
  if negb ok then ret (E_NO_MEM, []) else
  match fits len (enc_info label (mc_buf m) (u32 mac_len)) with
  | None => free BInfo ;;; ret (E_CBOR, [])
  | Some info =>
  if negb ((c_message c =? MSG_2) || (c_message c =? MSG_3)) then
    free BInfo ;;; ret (E_NOT_PERMITTED, [])
  else
  prk <- get_prk ;;
  '(r, kid) <- call_import KT_EXPAND prk ;;
  if negb (r =? OK) then free BInfo ;;; ret (E_CRYPTO, []) else
  '(r, out) <- call_expand kid info mac_len ;;
  call_destroy kid ;;;
  free BInfo ;;;
  if negb (r =? OK) then ret (E_CRYPTO, []) else ret (OK, blit (zeros mac_len) out)
  end.

(** Length of the Sig_structure buffer (455-468, 514-527). *)
Definition cose_len (m : macctx) (mac_len : Z) : Z :=
  11 + tstr_oh 11 + zlen (mc_id m) + bstr_oh (zlen (mc_id m)) + zlen (mc_aad m)
  + bstr_oh (zlen (mc_aad m)) + mac_len + int_mem_req (i32 mac_len).

(** 441-498 [sign_cose_sign_1]. *)
Definition sign_cose_sign_1 (cr : creds) (m : macctx) (mac : bytes) (size : Z) : M (Z * bytes) :=
  ok <- alloc BCose (cose_len m (zlen mac)) ;;
  if negb ok then ret (E_NO_MEM, []) else
  match fits (cose_len m (zlen mac)) (enc_sig_structure (mc_id m) (mc_aad m) mac) with
  | None => free BCose ;;; ret (E_CBOR, [])
  | Some b =>
  '(r, out) <- call_sign (cr_priv cr) b size ;;
  free BCose ;;;
  if negb (r =? OK) then ret (E_CRYPTO, []) else ret (OK, out)
  end.

(** 500-568 [verify_cose_sign_1]. *)
Definition verify_cose_sign_1 (m : macctx) (pub mac sign : bytes) : M Z :=
  ok <- alloc BCose (cose_len m (zlen mac)) ;;
  if negb ok then ret E_NO_MEM else
  match fits (cose_len m (zlen mac)) (enc_sig_structure (mc_id m) (mc_aad m) mac) with
  | None => free BCose ;;; ret E_CBOR
  | Some b =>
  '(r, kid) <- call_import KT_VERIFY pub ;;
  if negb (r =? OK) then free BCose ;;; ret E_CRYPTO else
  r <- call_verify kid b sign ;;
  call_destroy kid ;;;
  free BCose ;;;
  if negb (r =? OK) then ret E_CRYPTO else ret OK
  end.

(** 1357-1414 [edhoc_comp_sign_or_mac]: [size] is the room for the result. *)
Definition comp_sign_or_mac (cr : creds) (m : macctx) (mac : bytes) (size : Z) : M (Z * bytes) :=
  if (zlen mac =? 0) || (size =? 0) then ret (E_INVALID_ARG, []) else
  c <- getc ;;
  match signs (c_message c) (c_chosen_method c) with
  | Some true => sign_cose_sign_1 cr m mac size
  | Some false => check (zlen mac <=? size) UbWrite ;;; ret (OK, mac)
  | None =>
    if ((c_message c =? MSG_2) || (c_message c =? MSG_3)) && (c_chosen_method c =? METHOD_MAX)
    then ret (E_NOT_PERMITTED, []) else ret (E_BAD_STATE, [])
  end.

(** 1416-1483 [edhoc_verify_sign_or_mac]. A NULL public key is the empty one. *)
Definition verify_sign_or_mac (m : macctx) (pub sign mac : bytes) : M Z :=
  if (zlen pub =? 0) || (zlen sign =? 0) || (zlen mac =? 0) then ret E_INVALID_ARG else
  c <- getc ;;
  match signs (c_message c) (c_chosen_method c) with
  | Some true => verify_cose_sign_1 m pub mac sign
  | Some false =>
    if negb (zlen mac =? zlen sign) || negb (beqb sign mac)
    then ret (if c_message c =? MSG_2 then E_SIGMAC2 else E_SIGMAC3)
    else ret OK
  | None =>
    if ((c_message c =? MSG_2) || (c_message c =? MSG_3)) && (c_chosen_method c =? METHOD_MAX)
    then ret E_NOT_PERMITTED else ret E_BAD_STATE
  end.
End Common.
