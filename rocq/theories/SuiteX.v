(** helpers/src/edhoc_cipher_suite_0.c and edhoc_cipher_suite_4.c: the ready-made X25519 /
    Ed25519 suites.

    The two files are the same text, line by line, up to the constants of [xsuite]; lines below
    hold for both.  A pointer argument is an [option] ([None] is NULL): [kid] the key identifier
    it leads to, an input its bytes, an output the size that goes with it; a pointer to a length
    is a boolean.  Results: return value and the bytes written. *)
From Verif Require Import Bytes Values Monad Psa.

(** edhoc_cipher_suite_0.c / _4.c 39-49 and 587-597 (the suite table), and the AEAD of 113-135. *)
Record xsuite := XSu { xs_table : csuite; xs_aead : aead_alg; xs_aead_type : key_type }.
Definition suite_0 : xsuite := XSu (CS 0 16 8 13 32 8 32 64) AesCcm TyAes.
Definition suite_4 : xsuite := XSu (CS 4 32 16 12 32 16 32 64) ChaCha20Poly1305 TyChaCha.
(** compact25519: X25519_KEY_SIZE, X25519_SHARED_SIZE, ED25519_PUBLIC_KEY_SIZE (32),
    ED25519_PRIVATE_KEY_SIZE, ED25519_SIGNATURE_SIZE (64). *)
Definition X25519_KEY := 32.
Definition X25519_SHARED := 32.
Definition ED25519_PUB := 32.
Definition ED25519_PRIV := 64.
Definition ED25519_SIGN := 64.
(** compact25519 c25519.h [c25519_prepare]: clamping of a scalar. *)
Definition prepare (e : bytes) : bytes :=
  match e with
  | b :: r =>
    let e1 := Z.land b 0xf8 :: r in
    take 31 e1 ++ map (fun z => Z.lor (Z.land z 0x7f) 0x40) (drop 31 e1)
  | [] => []
  end.

Section SuiteX.
Context {L : libs} (S : xsuite).
Notation T := (xs_table S).

(** 67-142: the attributes for a key type; [None]: unknown type. *)
Definition x_attrs (kt len : Z) : option attrs :=
  if kt =? KT_KEY_AGREEMENT then Some (At [UExport] AlgNone TyRaw (8 * X25519_SHARED))
  else if kt =? KT_SIGNATURE then Some (At [UExport] AlgNone TyRaw (8 * ED25519_PRIV))
  else if kt =? KT_VERIFY then Some (At [UExport] AlgNone TyRaw (8 * ED25519_PUB))
  else if kt =? KT_EXTRACT then Some (At [UDerive] (AlgExtract Sha256) TyDerive (8 * len))
  else if kt =? KT_EXPAND then Some (At [UDerive] (AlgExpand Sha256) TyDerive (8 * len))
  else if kt =? KT_ENCRYPT then
    Some (At [UEncrypt] (AlgAead (xs_aead S) (cs_tag T)) (xs_aead_type S) (8 * cs_key T))
  else if kt =? KT_DECRYPT then
    Some (At [UDecrypt] (AlgAead (xs_aead S) (cs_tag T)) (xs_aead_type S) (8 * cs_key T))
  else None.
(** 59-157 [edhoc_cipher_suite_0_key_import].  Returns the value left behind [kid]. *)
Definition x_key_import (kt : Z) (raw : bytes) (kid : option Z) : X (Z * option Z) :=
  if kt =? KT_MAKE_KEY_PAIR then xret (OK, kid)
  else match x_attrs kt (zlen raw) with
  | None => xret (E_CRYPTO, kid)
  | Some a =>
    _ <~ xneed kid ;;
    '(r, id) <~ psa_import_key a raw ;;
    if negb (r =? 0) then xret (E_CRYPTO, Some id) else xret (OK, Some id)
  end.
(** 159-178 [edhoc_cipher_suite_0_key_destroy]. *)
Definition x_key_destroy (kid : option Z) : X (Z * option Z) :=
  match kid with
  | None => xret (E_INVALID_ARG, None)
  | Some id =>
    '(r, _) <~ psa_destroy_key id ;;
    if negb (r =? 0) then xret (E_CRYPTO, Some 0) else xret (OK, Some 0)
  end.
(** 180-213 [edhoc_cipher_suite_0_make_key_pair]. *)
Definition x_make_key_pair (kid priv : option Z) (plen : bool) (pub : option Z) (ulen : bool)
  : X (Z * bytes * bytes) :=
  match kid, priv, pub with
  | Some _, Some np, Some nu =>
    if (np =? 0) || (nu =? 0) || negb plen || negb ulen then xret (E_INVALID_ARG, [], [])
    else if (np <? X25519_KEY) || (nu <? X25519_KEY) then xret (E_CRYPTO, [], [])
    else
      '(r, seed) <~ psa_generate_random X25519_KEY ;;
      if negb (r =? 0) then xret (E_CRYPTO, [], [])
      else let '(sk, pk) := x_keygen seed in xret (OK, sk, pk)
  | _, _, _ => xret (E_INVALID_ARG, [], [])
  end.
(** 215-256 [edhoc_cipher_suite_0_key_agreement]. *)
Definition x_key_agreement (kid : option Z) (peer : option bytes) (out : option Z) (olen : bool)
  : X (Z * bytes) :=
  match kid, peer, out with
  | Some id, Some pk, Some n =>
    if (zlen pk =? 0) || (n =? 0) || negb olen then xret (E_INVALID_ARG, [])
    else if negb (X25519_KEY =? zlen pk) || negb (X25519_SHARED =? n) then xret (E_CRYPTO, [])
    else
      '(r, sk) <~ psa_export_key id X25519_KEY ;;
      if negb (r =? 0) || negb (X25519_KEY =? zlen sk) then xret (E_CRYPTO, [])
      else xret (OK, x_smult pk (prepare sk))
  | _, _, _ => xret (E_INVALID_ARG, [])
  end.
(** 258-293 [edhoc_cipher_suite_0_signature]. *)
Definition x_signature (kid : option Z) (input : option bytes) (out : option Z) (olen : bool)
  : X (Z * bytes) :=
  match kid, input, out with
  | Some id, Some m, Some n =>
    if (zlen m =? 0) || (n =? 0) || negb olen then xret (E_INVALID_ARG, [])
    else if negb (ED25519_SIGN =? n) then xret (E_CRYPTO, [])
    else
      '(r, sk) <~ psa_export_key id ED25519_PRIV ;;
      if negb (r =? 0) || negb (ED25519_PRIV =? zlen sk) then xret (E_CRYPTO, [])
      else xret (OK, x_ed_sign sk m)
  | _, _, _ => xret (E_INVALID_ARG, [])
  end.
(** 295-334 [edhoc_cipher_suite_0_verify]. *)
Definition x_verify (kid : option Z) (input sign : option bytes) : X Z :=
  match kid, input, sign with
  | Some id, Some m, Some sg =>
    if (zlen m =? 0) || (zlen sg =? 0) then xret E_INVALID_ARG
    else if negb (ED25519_SIGN =? zlen sg) then xret E_CRYPTO
    else
      '(r, pk) <~ psa_export_key id ED25519_PUB ;;
      if negb (r =? 0) || negb (ED25519_PUB =? zlen pk) then xret E_CRYPTO
      else if negb (x_ed_ok sg pk m) then xret E_CRYPTO else xret OK
  | _, _, _ => xret E_INVALID_ARG
  end.
End SuiteX.

(** ** Functions that all four classic suites share, word for word
    (edhoc_cipher_suite_0.c, _4.c 336-567; _2.c 555-786; _24.c 555-787). *)
Section Shared.
Context {L : libs}.

(** _0.c 336-401, _2.c 555-620 [edhoc_cipher_suite_x_extract]; [goto psa_error] is [give_up]. *)
Definition give_up {A} (a : A) : X (Z * A) := psa_key_derivation_abort ;~ xret (E_CRYPTO, a).
Definition s_extract (kid : option Z) (salt : option bytes) (out : option Z) (olen : bool)
  : X (Z * bytes) :=
  match kid, salt, out with
  | Some id, Some sa, Some n =>
    if (zlen sa =? 0) || (n =? 0) || negb olen then xret (E_INVALID_ARG, [])
    else
      '(r, a) <~ psa_get_key_attributes id ;;
      if negb (r =? 0) then give_up [] else
      '(r, _) <~ psa_key_derivation_setup (a_alg a) ;;
      if negb (r =? 0) then give_up [] else
      '(r, _) <~ psa_key_derivation_input_bytes true sa ;;
      if negb (r =? 0) then give_up [] else
      '(r, _) <~ psa_key_derivation_input_key id ;;
      if negb (r =? 0) then give_up [] else
      '(r, _) <~ psa_key_derivation_set_capacity n ;;
      if negb (r =? 0) then give_up [] else
      '(r, prk) <~ psa_key_derivation_output_bytes n ;;
      if negb (r =? 0) then give_up [] else
      psa_key_derivation_abort ;~ xret (OK, prk)
  | _, _, _ => xret (E_INVALID_ARG, [])
  end.
(** _0.c 403-466, _2.c 622-685 [edhoc_cipher_suite_x_expand]. *)
Definition s_expand (kid : option Z) (info : option bytes) (out : option Z) : X (Z * bytes) :=
  match kid, info, out with
  | Some id, Some i, Some n =>
    if (zlen i =? 0) || (n =? 0) then xret (E_INVALID_ARG, [])
    else
      '(r, a) <~ psa_get_key_attributes id ;;
      if negb (r =? 0) then give_up [] else
      '(r, _) <~ psa_key_derivation_setup (a_alg a) ;;
      if negb (r =? 0) then give_up [] else
      '(r, _) <~ psa_key_derivation_input_key id ;;
      if negb (r =? 0) then give_up [] else
      '(r, _) <~ psa_key_derivation_input_bytes false i ;;
      if negb (r =? 0) then give_up [] else
      '(r, _) <~ psa_key_derivation_set_capacity n ;;
      if negb (r =? 0) then give_up [] else
      '(r, okm) <~ psa_key_derivation_output_bytes n ;;
      if negb (r =? 0) then give_up [] else
      psa_key_derivation_abort ;~ xret (OK, okm)
  | _, _, _ => xret (E_INVALID_ARG, [])
  end.
(** _0.c 468-505, _2.c 687-724 [edhoc_cipher_suite_x_encrypt]. *)
Definition s_encrypt (kid : option Z) (nonce ad : option bytes) (ptxt : bytes) (out : option Z)
  (olen : bool) : X (Z * bytes) :=
  match kid, nonce, ad, out with
  | Some id, Some iv, Some aad, Some n =>
    if (zlen iv =? 0) || (zlen aad =? 0) || (n =? 0) || negb olen then xret (E_INVALID_ARG, [])
    else
      '(r, a) <~ psa_get_key_attributes id ;;
      if negb (r =? 0) then xret (E_CRYPTO, []) else
      '(r, c) <~ psa_aead_encrypt id (a_alg a) iv aad ptxt n ;;
      if negb (r =? 0) then xret (E_CRYPTO, []) else xret (OK, c)
  | _, _, _, _ => xret (E_INVALID_ARG, [])
  end.
(** _0.c 507-544, _2.c 726-763 [edhoc_cipher_suite_x_decrypt].  The plaintext pointer is not
    checked; its size is [n]. *)
Definition s_decrypt (kid : option Z) (nonce ad ctxt : option bytes) (n : Z) (olen : bool)
  : X (Z * bytes) :=
  match kid, nonce, ad, ctxt with
  | Some id, Some iv, Some aad, Some c =>
    if (zlen iv =? 0) || (zlen aad =? 0) || (zlen c =? 0) || negb olen then xret (E_INVALID_ARG, [])
    else
      '(r, a) <~ psa_get_key_attributes id ;;
      if negb (r =? 0) then xret (E_CRYPTO, []) else
      '(r, p) <~ psa_aead_decrypt id (a_alg a) iv aad c n ;;
      if negb (r =? 0) then xret (E_CRYPTO, []) else xret (OK, p)
  | _, _, _, _ => xret (E_INVALID_ARG, [])
  end.
(** _0.c 546-567, _2.c 765-786 [edhoc_cipher_suite_x_hash]. *)
Definition s_hash (h : hash_alg) (input : option bytes) (out : option Z) (olen : bool) : X (Z * bytes) :=
  match input, out with
  | Some i, Some n =>
    if (zlen i =? 0) || (n =? 0) || negb olen then xret (E_INVALID_ARG, [])
    else
      '(r, d) <~ psa_hash_compute h i n ;;
      if negb (r =? 0) then xret (E_CRYPTO, []) else xret (OK, d)
  | _, _ => xret (E_INVALID_ARG, [])
  end.
End Shared.
