(** helpers/src/edhoc_cipher_suite_2.c and edhoc_cipher_suite_24.c: the ready-made NIST P-256 and
    P-384 suites.

    The two files are the same text up to the constants of [wsuite]; lines are those of
    edhoc_cipher_suite_2.c (the other file has them too, one further down after line 557).
    Arguments as in SuiteX.v. *)
From Coq Require Import Zpow_facts.
From Verif Require Import Bytes Values Monad Psa SuiteX.

(** 37-51 and 807-816 (the suite table), the curve of 180-217 and 389-391, the hash of 200-231
    and 466-483, the AEAD of 236-258. *)
Record wsuite := WSu { ws_table : csuite; ws_curve : curve; ws_hash : hash_alg; ws_aead : aead_alg;
                       ws_uncomp : Z; ws_ecdh : Z }.
Definition suite_2 : wsuite := WSu (CS 2 16 8 13 32 8 32 64) P256 Sha256 AesCcm 65 32.
Definition suite_24 : wsuite := WSu (CS 24 32 16 12 48 16 48 96) P384 Sha384 AesGcm 97 48.

Definition ECP_BUFFER_TOO_SMALL := -20224. (* -0x4F00 *)

Section SuiteW.
Context {L : libs} (S : wsuite).
Notation T := (ws_table S).

(** 69-157 [mbedtls_ecp_decompress] for the group of curve [c].  [raw] is the x-coordinate; the
    point 04 | X | Y goes to a buffer of [size] bytes.  The numbers r, x, n live on the heap and
    are released on every path (142-150); only the failure of an operation is kept.
    [Zpow_mod r n p] is r ^ n mod p. *)
Definition ecp_decompress (c : curve) (raw : bytes) (size : Z) : X (Z * bytes) :=
  let p := cv_p c in
  let plen := cv_len c in
  if size <? 2 * plen + 1 then xret (ECP_BUFFER_TOO_SMALL, [])
  else if plen <? zlen raw then xret (ECP_BUFFER_TOO_SMALL, [])
  else
    xcheck (plen <=? zlen raw) UbRead ;~
    '(e, x) <~ mpi (unbe (take plen raw)) ;; if negb (e =? 0) then xret (e, []) else
    '(e, r) <~ mpi (x * x) ;;                if negb (e =? 0) then xret (e, []) else
    '(e, r) <~ mpi (r - 3) ;;                if negb (e =? 0) then xret (e, []) else
    '(e, r) <~ mpi (r * x) ;;                if negb (e =? 0) then xret (e, []) else
    '(e, r) <~ mpi (r + cv_b c) ;;           if negb (e =? 0) then xret (e, []) else
    '(e, n) <~ mpi (p + 1) ;;                if negb (e =? 0) then xret (e, []) else
    '(e, n) <~ mpi (n / 4) ;;                if negb (e =? 0) then xret (e, []) else
    '(e, r) <~ mpi (Zpow_mod r n p) ;;       if negb (e =? 0) then xret (e, []) else
    '(e, r) <~ (if negb (Bool.eqb (nth 0 raw 0 =? 3) (Z.odd r)) then mpi (p - r) else xret (0, r)) ;;
    if negb (e =? 0) then xret (e, []) else
    xret (0, 4 :: take plen raw ++ be (Z.to_nat plen) r).

(** 173-263: the attributes for a key type. *)
Definition w_attrs (kt len : Z) : option attrs :=
  let bits := 8 * cs_ecc T in
  if kt =? KT_MAKE_KEY_PAIR then Some (At [UExport] AlgEcdh TyEccPair bits)
  else if kt =? KT_KEY_AGREEMENT then Some (At [UDerive] AlgEcdh TyEccPair bits)
  else if kt =? KT_SIGNATURE then Some (At [USignMsg; USignHash] (AlgEcdsa (ws_hash S)) TyEccPair bits)
  else if kt =? KT_VERIFY then Some (At [UVerifyMsg; UVerifyHash] (AlgEcdsa (ws_hash S)) TyEccPub bits)
  else if kt =? KT_EXTRACT then Some (At [UDerive] (AlgExtract (ws_hash S)) TyDerive (8 * len))
  else if kt =? KT_EXPAND then Some (At [UDerive] (AlgExpand (ws_hash S)) TyDerive (8 * len))
  else if kt =? KT_ENCRYPT then
    Some (At [UEncrypt] (AlgAead (ws_aead S) (cs_tag T)) TyAes (8 * cs_key T))
  else if kt =? KT_DECRYPT then
    Some (At [UDecrypt] (AlgAead (ws_aead S) (cs_tag T)) TyAes (8 * cs_key T))
  else None.
(** 161-283 [edhoc_cipher_suite_2_key_import]. *)
Definition w_key_import (kt : Z) (raw : bytes) (kid : option Z) : X (Z * option Z) :=
  match w_attrs kt (zlen raw) with
  | None => xret (E_CRYPTO, kid)
  | Some a =>
    _ <~ xneed kid ;;
    '(r, id) <~ (if kt =? KT_MAKE_KEY_PAIR then psa_generate_key a else psa_import_key a raw) ;;
    if negb (r =? 0) then xret (E_CRYPTO, Some id) else xret (OK, Some id)
  end.
(** 285-304 [edhoc_cipher_suite_2_key_destroy]: as in suite 0. *)
Definition w_key_destroy : option Z -> X (Z * option Z) := x_key_destroy.
(** 306-349 [edhoc_cipher_suite_2_make_key_pair]: the public key is copied with the size of the
    caller's buffer from behind the first byte of the uncompressed key. *)
Definition w_make_key_pair (kid priv : option Z) (plen : bool) (pub : option Z) (ulen : bool)
  : X (Z * bytes * bytes) :=
  match kid, priv, pub with
  | Some id, Some np, Some nu =>
    if (np =? 0) || (nu =? 0) || negb plen || negb ulen then xret (E_INVALID_ARG, [], [])
    else
      '(r, sk) <~ psa_export_key id np ;;
      if negb (r =? 0) || negb (cs_ecc T =? zlen sk) then xret (E_CRYPTO, sk, [])
      else
        '(r, pk) <~ psa_export_public_key id (ws_uncomp S) ;;
        if negb (r =? 0) then xret (E_CRYPTO, sk, [])
        else
          xcheck (1 + nu <=? ws_uncomp S) UbRead ;~
          xret (OK, sk, take nu (drop 1 (arr_read (ws_uncomp S) pk)))
  | _, _, _ => xret (E_INVALID_ARG, [], [])
  end.
(** 351-434 [edhoc_cipher_suite_2_key_agreement]. *)
Definition pk_give_up : X (Z * bytes) := mbedtls_pk_free ;~ xret (E_CRYPTO, []).
Definition w_key_agreement (kid : option Z) (peer : option bytes) (out : option Z) (olen : bool)
  : X (Z * bytes) :=
  match kid, peer, out with
  | Some id, Some pk, Some n =>
    if (zlen pk =? 0) || (n =? 0) || negb olen then xret (E_INVALID_ARG, [])
    else if negb (cs_ecc T =? zlen pk) || negb (ws_ecdh S =? n) then xret (E_CRYPTO, [])
    else
      '(r, _) <~ mbedtls_pk_setup ;;
      if negb (r =? 0) then pk_give_up else
      '(r, _) <~ mbedtls_ecp_group_load (ws_curve S) ;;
      if negb (r =? 0) then pk_give_up else
      '(r, q) <~ ecp_decompress (ws_curve S) pk (ws_uncomp S) ;;
      if negb (r =? 0) then pk_give_up else
      mbedtls_pk_free ;~
      '(r, a) <~ psa_get_key_attributes id ;;
      if negb (r =? 0) then xret (E_CRYPTO, []) else
      '(r, g) <~ psa_raw_key_agreement (a_alg a) id q n ;;
      if negb (r =? 0) then xret (E_CRYPTO, []) else xret (OK, g)
  | _, _, _ => xret (E_INVALID_ARG, [])
  end.
(** 436-497 [edhoc_cipher_suite_2_signature]. *)
Definition w_signature (kid : option Z) (input : option bytes) (out : option Z) (olen : bool)
  : X (Z * bytes) :=
  match kid, input, out with
  | Some id, Some m, Some n =>
    if (zlen m =? 0) || (n =? 0) || negb olen then xret (E_INVALID_ARG, [])
    else if negb (cs_sign T =? n) then xret (E_CRYPTO, [])
    else
      '(r, a) <~ psa_get_key_attributes id ;;
      if negb (r =? 0) then xret (E_CRYPTO, []) else
      '(r, d) <~ s_hash (ws_hash S) (Some m) (Some (hash_size (ws_hash S))) true ;;
      if negb (r =? OK) then xret (E_CRYPTO, [])
      else if negb (hash_size (ws_hash S) =? zlen d) then xret (E_CRYPTO, [])
      else
        '(r, sg) <~ psa_sign_hash id (a_alg a) d n ;;
        if negb (r =? 0) then xret (E_CRYPTO, [])
        else if negb (cs_sign T =? zlen sg) then xret (E_CRYPTO, sg)
        else xret (OK, sg)
  | _, _, _ => xret (E_INVALID_ARG, [])
  end.
(** 499-553 [edhoc_cipher_suite_2_verify]. *)
Definition w_verify (kid : option Z) (input sign : option bytes) : X Z :=
  match kid, input, sign with
  | Some id, Some m, Some sg =>
    if (zlen m =? 0) || (zlen sg =? 0) then xret E_INVALID_ARG
    else if negb (cs_sign T =? zlen sg) then xret E_CRYPTO
    else
      '(r, a) <~ psa_get_key_attributes id ;;
      if negb (r =? 0) then xret E_CRYPTO else
      '(r, d) <~ s_hash (ws_hash S) (Some m) (Some (hash_size (ws_hash S))) true ;;
      if negb (r =? OK) then xret E_CRYPTO
      else if negb (hash_size (ws_hash S) =? zlen d) then xret E_CRYPTO
      else
        '(r, _) <~ psa_verify_hash id (a_alg a) d sg ;;
        if negb (r =? 0) then xret E_CRYPTO else xret OK
  | _, _, _ => xret E_INVALID_ARG
  end.
End SuiteW.
