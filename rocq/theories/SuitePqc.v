(** helpers/src/edhoc_exp_pqc_cipher_suite_1.c (ML-KEM-512, ML-DSA-44) and
    helpers/src/edhoc_kdf_kmac256_xkcp.c.

    Arguments as in SuiteX.v.  The static slot table is [x_slots] of the state. *)
From Verif Require Import Bytes Values Monad Psa.

(** edhoc_exp_pqc_cipher_suite_1.h 54-72 and .c 42-66. *)
Definition EK_LEN := 800.
Definition DK_LEN := 1632.
Definition CT_LEN := 768.
Definition SS_LEN := 32.
Definition PK_LEN := 1312.
Definition SK_LEN := 2560.
Definition SIG_LEN := 2420.
Definition HASH_LEN := 64.
Definition IKM_BUF := 256.
Definition MAX_SLOTS := 2.
(** PSA_KEY_ID_USER_MAX (0x3fffffff) - (MAX_SLOTS - 1). *)
Definition SLOT_BASE := 0x3fffffff - (MAX_SLOTS - 1).
Definition CCM_ALG : alg := AlgAead AesCcm 16.
(** [struct edhoc_cipher_suite_pqc] (include/edhoc_crypto.h) and the table 810-822. *)
Record pqc_table := PqT { pt_value : Z; pt_key : Z; pt_tag : Z; pt_iv : Z; pt_hash : Z; pt_mac : Z;
  pt_pub : Z; pt_priv : Z; pt_ct : Z; pt_ss : Z; pt_sig : Z }.
Definition pqc_suite : pqc_table := PqT (-1) 16 16 13 HASH_LEN 16 EK_LEN DK_LEN CT_LEN SS_LEN SIG_LEN.

(** A slot after memset 0, and the table at program start (79-80). *)
Definition slot0 : slot := Sl false 0 [] 0.
Definition slots0 : list slot := repeat slot0 (Z.to_nat MAX_SLOTS).

Section Pqc.
Context {L : libs}.

(** 186-191 [exp_pqc_cs1_is_slot_handle]. *)
Definition is_slot_handle (h : Z) : bool := (SLOT_BASE <=? h) && (h <? SLOT_BASE + MAX_SLOTS).
Definition slot_at (h : Z) (s : xst) : slot := nth (Z.to_nat (h - SLOT_BASE)) (x_slots s) slot0.
Fixpoint set_nth {A} (i : nat) (a : A) (l : list A) : list A :=
  match l, i with
  | [], _ => []
  | _ :: r, O => a :: r
  | x :: r, S j => x :: set_nth j a r
  end.
Definition put_slot (h : Z) (v : slot) : X unit :=
  fun s => XRet tt (set_slots (set_nth (Z.to_nat (h - SLOT_BASE)) v (x_slots s)) s).
(** 193-207 [exp_pqc_cs1_slot_from_handle]. *)
Definition slot_from_handle (h : Z) : X (option slot) :=
  fun s =>
    if negb (is_slot_handle h) then XRet None s
    else if (MAX_SLOTS <=? h - SLOT_BASE) || negb (sl_used (slot_at h s)) then XRet None s
    else XRet (Some (slot_at h s)) s.
(** 209-234 [exp_pqc_cs1_slot_alloc]: first free slot; the handle is unchanged on failure. *)
Fixpoint free_slot (i : nat) (l : list slot) : option nat :=
  match l with
  | [] => None
  | v :: r => if sl_used v then free_slot (S i) r else Some i
  end.
Definition slot_alloc (kt kid : Z) : X (Z * Z) :=
  fun s =>
    match free_slot O (x_slots s) with
    | Some i => XRet (OK, SLOT_BASE + Z.of_nat i) (set_slots (set_nth i (Sl true kt [] 0) (x_slots s)) s)
    | None => XRet (E_CRYPTO, kid) s
    end.
(** 236-245 [exp_pqc_cs1_slot_free]. *)
Definition slot_free (h : Z) : X unit :=
  o <~ slot_from_handle h ;; match o with None => xret tt | Some _ => put_slot h slot0 end.
(** 247-285 [exp_pqc_cs1_export_raw_key] with non-NULL arguments. *)
Definition export_raw_key (h size : Z) : X (Z * bytes) :=
  if is_slot_handle h then
    o <~ slot_from_handle h ;;
    match o with
    | None => xret (E_CRYPTO, [])
    | Some v =>
      if sl_len v =? 0 then xret (E_CRYPTO, [])
      else if size <? sl_len v then xret (E_TOO_SMALL, [])
      else xret (OK, arr_read (sl_len v) (sl_material v))
    end
  else
    '(r, b) <~ psa_export_key h size ;;
    if negb (r =? 0) then xret (E_CRYPTO, []) else xret (OK, b).

(** 308-357: attributes of the key types other than MAKE_KEY_PAIR. *)
Definition q_attrs (kt len : Z) : option attrs :=
  if (kt =? KT_KEY_AGREEMENT) || (kt =? KT_SIGNATURE) || (kt =? KT_VERIFY) || (kt =? KT_EXTRACT)
     || (kt =? KT_EXPAND) then Some (At [UExport] AlgNone TyRaw (8 * len))
  else if kt =? KT_ENCRYPT then Some (At [UEncrypt] CCM_ALG TyAes (8 * 16))
  else if kt =? KT_DECRYPT then Some (At [UDecrypt] CCM_ALG TyAes (8 * 16))
  else None.
(** 287-370 [exp_pqc_cs1_key_import]. *)
Definition q_key_import (kt : Z) (raw : bytes) (kid : option Z) : X (Z * option Z) :=
  match kid with
  | None => xret (E_INVALID_ARG, None)
  | Some _ =>
    if kt =? KT_MAKE_KEY_PAIR then '(r, h) <~ slot_alloc kt 0 ;; xret (r, Some h)
    else match q_attrs kt (zlen raw) with
    | None => xret (E_CRYPTO, Some 0)
    | Some a =>
      '(r, id) <~ psa_import_key a raw ;;
      if negb (r =? 0) then xret (E_CRYPTO, Some id) else xret (OK, Some id)
    end
  end.
(** 372-398 [exp_pqc_cs1_key_destroy]. *)
Definition q_key_destroy (kid : option Z) : X (Z * option Z) :=
  match kid with
  | None => xret (E_INVALID_ARG, None)
  | Some h =>
    if is_slot_handle h then slot_free h ;~ xret (OK, Some 0)
    else
      '(r, _) <~ psa_destroy_key h ;;
      if negb (r =? 0) then xret (E_CRYPTO, Some 0) else xret (OK, Some 0)
  end.
(** 400-444 [exp_pqc_cs1_make_key_pair].  Results: code, private key, public key. *)
Definition q_make_key_pair (kid priv : option Z) (plen : bool) (pub : option Z) (ulen : bool)
  : X (Z * bytes * bytes) :=
  match kid, priv, pub with
  | Some h, Some np, Some nu =>
    if (np =? 0) || (nu =? 0) || negb plen || negb ulen then xret (E_INVALID_ARG, [], [])
    else
      o <~ slot_from_handle h ;;
      match o with
      | None => xret (E_INVALID_ARG, [], [])
      | Some v =>
        if negb (sl_type v =? KT_MAKE_KEY_PAIR) then xret (E_INVALID_ARG, [], [])
        else if (np <? DK_LEN) || (nu <? EK_LEN) then xret (E_TOO_SMALL, [], [])
        else
          '(r, kp) <~ xget XKemPair ([], []) (fun s => (0, x_kem_pair (x_log s))) ;;
          if negb (r =? 0) then xret (E_CRYPTO, snd kp, fst kp)
          else put_slot h (Sl true (sl_type v) (arr_read DK_LEN (snd kp)) DK_LEN) ;~
               xret (OK, snd kp, fst kp)
      end
  | _, _, _ => xret (E_INVALID_ARG, [], [])
  end.
(** 446-486 [exp_pqc_cs1_encapsulate]; the key identifier is not used.  Results: code,
    ciphertext, shared secret. *)
Definition q_encapsulate (peer : option bytes) (ct : option Z) (clen : bool) (ss : option Z) (slen : bool)
  : X (Z * bytes * bytes) :=
  match peer, ct, ss with
  | Some pk, Some nc, Some ns =>
    if negb clen || negb slen then xret (E_INVALID_ARG, [], [])
    else if negb (EK_LEN =? zlen pk) then xret (E_INVALID_ARG, [], [])
    else if (nc <? CT_LEN) || (ns <? SS_LEN) then xret (E_TOO_SMALL, [], [])
    else
      '(r, cs) <~ xget XKemEncaps ([], []) (fun s => (0, x_encaps (x_log s) pk)) ;;
      if negb (r =? 0) then xret (E_CRYPTO, fst cs, snd cs) else xret (OK, fst cs, snd cs)
  | _, _, _ => xret (E_INVALID_ARG, [], [])
  end.
(** 488-540 [exp_pqc_cs1_decapsulate]. *)
Definition q_decapsulate (kid : option Z) (ct : option bytes) (ss : option Z) (slen : bool) : X (Z * bytes) :=
  match kid, ct, ss with
  | Some h, Some c, Some ns =>
    if negb slen then xret (E_INVALID_ARG, [])
    else if negb (CT_LEN =? zlen c) then xret (E_INVALID_ARG, [])
    else if ns <? SS_LEN then xret (E_TOO_SMALL, [])
    else
      '(r, dk) <~ export_raw_key h DK_LEN ;;
      if negb (r =? OK) then xret (r, [])
      else if negb (DK_LEN =? zlen dk) then xret (E_CRYPTO, [])
      else
        '(r, k) <~ xget XKemDecaps [] (fun _ => (0, x_decaps c dk)) ;;
        if negb (r =? 0) then xret (E_CRYPTO, k) else xret (OK, k)
  | _, _, _ => xret (E_INVALID_ARG, [])
  end.
(** 542-587 [exp_pqc_cs1_signature]. *)
Definition q_signature (kid : option Z) (input : option bytes) (out : option Z) (olen : bool) : X (Z * bytes) :=
  match kid, input, out with
  | Some h, Some m, Some n =>
    if negb olen then xret (E_INVALID_ARG, [])
    else if n <? SIG_LEN then xret (E_TOO_SMALL, [])
    else
      '(r, sk) <~ export_raw_key h SK_LEN ;;
      if negb (r =? OK) then xret (r, [])
      else if negb (SK_LEN =? zlen sk) then xret (E_CRYPTO, [])
      else
        '(r, sg) <~ xget XDsaSign [] (fun s => (0, x_dsa_sign (x_log s) m sk)) ;;
        if negb (r =? 0) then xret (E_CRYPTO, sg) else xret (OK, sg)
  | _, _, _ => xret (E_INVALID_ARG, [])
  end.
(** 589-626 [exp_pqc_cs1_verify]. *)
Definition q_verify (kid : option Z) (input sign : option bytes) : X Z :=
  match kid, input, sign with
  | Some h, Some m, Some sg =>
    '(r, pk) <~ export_raw_key h PK_LEN ;;
    if negb (r =? OK) then xret r
    else if negb (PK_LEN =? zlen pk) then xret E_CRYPTO
    else
      '(r, ok) <~ xget XDsaVerify false (fun _ => (0, x_dsa_ok m sg pk)) ;;
      if negb (r =? 0) || negb ok then xret E_CRYPTO else xret OK
  | _, _, _ => xret E_INVALID_ARG
  end.
(** 628-648 [exp_pqc_cs1_hash]. *)
Definition q_hash (input : option bytes) (out : option Z) (olen : bool) : X (Z * bytes) :=
  match input, out with
  | Some i, Some n =>
    if negb olen then xret (E_INVALID_ARG, [])
    else if n <? HASH_LEN then xret (E_TOO_SMALL, [])
    else xret (OK, x_shake i HASH_LEN)
  | _, _ => xret (E_INVALID_ARG, [])
  end.
(** edhoc_kdf_kmac256_xkcp.c 38-68 [edhoc_kdf_kmac256] with key and output non-NULL.  The bit
    lengths are computed in size_t. *)
Definition kmac256 (key input : bytes) (n : Z) : X (Z * bytes) :=
  if n =? 0 then xret (E_INVALID_ARG, [])
  else
    '(r, o) <~ xget XKmac [] (fun _ =>
      (0, x_kmac (take ((zlen key * 8) mod 2 ^ 64 / 8) key) (take ((zlen input * 8) mod 2 ^ 64 / 8) input)
                 ((n * 8) mod 2 ^ 64) [])) ;;
    if negb (r =? 0) then xret (E_CRYPTO, o) else xret (OK, o).
(** 650-692 [exp_pqc_cs1_extract]. *)
Definition q_extract (kid : option Z) (salt : option bytes) (out : option Z) (olen : bool) : X (Z * bytes) :=
  match kid, salt, out with
  | Some h, Some sa, Some n =>
    if (zlen sa =? 0) || negb olen then xret (E_INVALID_ARG, [])
    else if n <? HASH_LEN then xret (E_TOO_SMALL, [])
    else
      '(r, ikm) <~ export_raw_key h IKM_BUF ;;
      if negb (r =? OK) then xret (r, []) else
      '(r, prk) <~ kmac256 sa ikm HASH_LEN ;;
      if negb (r =? OK) then xret (r, prk) else xret (OK, prk)
  | _, _, _ => xret (E_INVALID_ARG, [])
  end.
(** 694-728 [exp_pqc_cs1_expand]. *)
Definition q_expand (kid : option Z) (info : option bytes) (out : option Z) : X (Z * bytes) :=
  match kid, info, out with
  | Some h, Some i, Some n =>
    if (zlen i =? 0) || (n =? 0) then xret (E_INVALID_ARG, [])
    else
      '(r, prk) <~ export_raw_key h HASH_LEN ;;
      if negb (r =? OK) then xret (r, []) else
      '(r, okm) <~ kmac256 prk i n ;;
      if negb (r =? OK) then xret (r, okm) else xret (OK, okm)
  | _, _, _ => xret (E_INVALID_ARG, [])
  end.
(** 730-760, 762-790 [exp_pqc_cs1_encrypt], [exp_pqc_cs1_decrypt]. *)
Definition q_encrypt (kid : option Z) (nonce : option bytes) (ad ptxt : bytes) (out : option Z) (olen : bool)
  : X (Z * bytes) :=
  match kid, nonce, out with
  | Some h, Some iv, Some n =>
    if negb olen then xret (E_INVALID_ARG, [])
    else
      '(r, c) <~ psa_aead_encrypt h CCM_ALG iv ad ptxt n ;;
      if negb (r =? 0) then xret (E_CRYPTO, []) else xret (OK, c)
  | _, _, _ => xret (E_INVALID_ARG, [])
  end.
Definition q_decrypt (kid : option Z) (nonce : option bytes) (ad : bytes) (ctxt : option bytes) (out : option Z)
  (olen : bool) : X (Z * bytes) :=
  match kid, nonce, ctxt, out with
  | Some h, Some iv, Some c, Some n =>
    if negb olen then xret (E_INVALID_ARG, [])
    else
      '(r, p) <~ psa_aead_decrypt h CCM_ALG iv ad c n ;;
      if negb (r =? 0) then xret (E_CRYPTO, []) else xret (OK, p)
  | _, _, _, _ => xret (E_INVALID_ARG, [])
  end.
End Pqc.
