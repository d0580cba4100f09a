(** Constants and plain data types of the public headers. *)
From Verif Require Import Bytes Cbor CborGen.

(** include/edhoc_values.h: return values. *)
Definition OK := 0.
Definition E_GENERIC := -100.
Definition E_NOT_SUPPORTED := -101.
Definition E_NOT_PERMITTED := -102.
Definition E_TOO_SMALL := -103.
Definition E_BAD_STATE := -104.
Definition E_INVALID_ARG := -105.
Definition E_NO_MEM := -106.
Definition E_CBOR := -110.
Definition E_CRYPTO := -111.
Definition E_CRED := -112.
Definition E_EAD_COMPOSE := -120.
Definition E_EAD_PROCESS := -121.
Definition E_MSG1 := -130.
Definition E_MSG2 := -131.
Definition E_MSG3 := -132.
Definition E_MSG4 := -133.
Definition E_EPH_DH := -134.
Definition E_TH := -135.
Definition E_PRK := -136.
Definition E_MAC2 := -137.
Definition E_SIGMAC2 := -138.
Definition E_MAC3 := -139.
Definition E_SIGMAC3 := -140.

(** include/edhoc_context.h 78-126 [enum edhoc_role], [enum edhoc_state_machine]. *)
Definition INITIATOR := 0.
Definition RESPONDER := 1.
Definition SM_START := 0.
Definition SM_ABORTED := 1.
Definition SM_RECEIVED_M1 := 2.
Definition SM_WAIT_M2 := 4.
Definition SM_VERIFIED_M2 := 6.
Definition SM_WAIT_M3 := 7.
Definition SM_COMPLETED := 10.
Definition SM_PERSISTED := 11.

(** [enum edhoc_method] has the values 0..3, EDHOC_METHOD_MAX = 4. *)
Definition METHOD_MAX := 4.

(** [enum edhoc_th_state], [enum edhoc_prk_state]. *)
Definition TH_INVALID := 0.
Definition TH_1 := 1.
Definition TH_2 := 2.
Definition TH_3 := 3.
Definition TH_4 := 4.
Definition PRK_INVALID := 0.
Definition PRK_2E := 1.
Definition PRK_3E2M := 2.
Definition PRK_4E3M := 3.
Definition PRK_OUT := 4.

(** include/edhoc_ead.h [enum edhoc_message]. *)
Definition MSG_1 := 0.
Definition MSG_2 := 1.
Definition MSG_3 := 2.
Definition MSG_4 := 3.

(** [enum edhoc_error_code]. *)
Definition EC_SUCCESS := 0.
Definition EC_UNSPECIFIED := 1.
Definition EC_WRONG_SUITE := 2.
Definition EC_UNKNOWN_CRED := 3.

(** [enum edhoc_connection_id_type], [enum edhoc_encode_type]. *)
Definition CID_INT := 0.
Definition CID_BSTR := 1.
Definition ENC_INT := 0.
Definition ENC_BSTR := 1.

(** include/edhoc_crypto.h [enum edhoc_key_type]. *)
Definition KT_MAKE_KEY_PAIR := 0.
Definition KT_KEY_AGREEMENT := 1.
Definition KT_SIGNATURE := 2.
Definition KT_VERIFY := 3.
Definition KT_EXTRACT := 4.
Definition KT_EXPAND := 5.
Definition KT_ENCRYPT := 6.
Definition KT_DECRYPT := 7.

(** include/edhoc_credentials.h [enum edhoc_cose_header]. *)
Definition COSE_ANY := -65537.
Definition COSE_KID := 4.
Definition COSE_CHAIN := 33.
Definition COSE_HASH := 34.

(** Info labels (include/edhoc_common.h / RFC 9528 4.1.2). *)
Definition L_KEYSTREAM_2 := 0.
Definition L_SALT_3E2M := 1.
Definition L_MAC_2 := 2.
Definition L_K_3 := 3.
Definition L_IV_3 := 4.
Definition L_SALT_4E3M := 5.
Definition L_MAC_3 := 6.
Definition L_PRK_OUT := 7.
Definition L_K_4 := 8.
Definition L_IV_4 := 9.
Definition L_PRK_EXPORTER := 10.
Definition L_NEW_PRK_OUT := 11.

(** include/edhoc_crypto.h [struct edhoc_cipher_suite]. *)
Record csuite := CS { cs_value : Z; cs_key : Z; cs_tag : Z; cs_iv : Z;
                      cs_hash : Z; cs_mac : Z; cs_ecc : Z; cs_sign : Z }.
Definition csuite0 : csuite := CS 0 0 0 0 0 0 0 0.

(** [struct edhoc_connection_id]; the byte-string member is its first [bstr_length] bytes. *)
Record conn_id := CID { cid_type : Z; cid_int : Z; cid_bstr : bytes }.
Definition cid0 : conn_id := CID 0 0 [].

(** Callback tables; a function pointer is an identifier, [None] is NULL.
    [struct edhoc_ead], [edhoc_keys], [edhoc_crypto], [edhoc_credentials]. *)
Record ead_fns := EF { f_compose : option Z; f_process : option Z }.
Record key_fns := KF { f_import : option Z; f_destroy : option Z }.
Record crypto_fns := CF { f_mkpair : option Z; f_agree : option Z; f_sign : option Z;
                          f_verify : option Z; f_extract : option Z; f_expand : option Z;
                          f_encrypt : option Z; f_decrypt : option Z; f_hash : option Z }.
Record cred_fns := RF { f_fetch : option Z; f_cverify : option Z }.

(** [struct edhoc_auth_creds] (include/edhoc_credentials.h): the union is a sum; using a
    member that does not match [label] is undefined behaviour in the model (the C code would
    reinterpret memory). *)
Inductive cred_body :=
| CKid (cred : bytes) (is_cbor : bool) (enc : Z) (kint : Z) (kbstr : bytes)
| CChain (certs : list bytes)
| CHash (cert fp : bytes) (enc : Z) (alg_int : Z) (alg_bstr : bytes)
| CAny (idc : bytes) (comp : bool) (enc : Z) (comp_enc : bytes) (cred : bytes)
| CNone.
Record creds := CR { cr_priv : bytes; cr_label : Z; cr_body : cred_body }.
Definition creds0 : creds := CR [] 0 CNone.
