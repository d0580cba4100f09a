(** GENERATED by tools/gen_ctx.py: [struct edhoc_context] and its field setters.

    Models /repo/include/edhoc_context.h 228-336.  Enumerations are their C values.  An
    array field holds the prefix written so far; the rest of the array is zero, because the
    context is zero-initialised by edhoc_context_init (library/edhoc.c 41-43). *)
From Verif Require Import Bytes Cbor CborGen Values.

Record ctx := Ctx {
  c_chosen_method : Z (* chosen_method *);
  c_methods : list Z (* method[] (written prefix) *);
  c_method_len : Z (* method_len *);
  c_csuite_idx : Z (* chosen_csuite_idx *);
  c_csuites : list csuite (* csuite[] (written prefix) *);
  c_csuite_len : Z (* csuite_len *);
  c_peer_csuites : list Z (* peer_csuite[].value (written prefix) *);
  c_peer_csuite_len : Z (* peer_csuite_len *);
  c_cid : conn_id (* cid *);
  c_peer_cid : conn_id (* peer_cid *);
  c_dh_pub : bytes (* dh_pub_key[] (written prefix) *);
  c_dh_pub_len : Z (* dh_pub_key_len *);
  c_dh_priv : bytes (* dh_priv_key[] (written prefix) *);
  c_dh_priv_len : Z (* dh_priv_key_len *);
  c_dh_peer : bytes (* dh_peer_pub_key[] (written prefix) *);
  c_dh_peer_len : Z (* dh_peer_pub_key_len *);
  c_dh_secret : bytes (* dh_secret[] (written prefix) *);
  c_dh_secret_len : Z (* dh_secret_len *);
  c_is_init : bool (* is_init *);
  c_oscore_ok : bool (* is_oscore_export_allowed *);
  c_status : Z (* status *);
  c_message : Z (* message *);
  c_role : Z (* role *);
  c_th_state : Z (* th_state *);
  c_th : bytes (* th[] (written prefix) *);
  c_th_len : Z (* th_len *);
  c_prk_state : Z (* prk_state *);
  c_prk : bytes (* prk[] (written prefix) *);
  c_prk_len : Z (* prk_len *);
  c_ead : ead_fns (* ead *);
  c_keys : key_fns (* keys *);
  c_crypto : crypto_fns (* crypto *);
  c_cred : cred_fns (* cred *);
  c_tokens : list token (* ead_token[] up to nr_of_ead_tokens *);
  c_user : option Z (* user_ctx *);
  c_error : Z (* error_code *)
}.

Definition set_chosen_method (v : Z) (c : ctx) : ctx :=
  Ctx v (c_methods c) (c_method_len c) (c_csuite_idx c) (c_csuites c) (c_csuite_len c) (c_peer_csuites c) (c_peer_csuite_len c) (c_cid c) (c_peer_cid c) (c_dh_pub c) (c_dh_pub_len c) (c_dh_priv c) (c_dh_priv_len c) (c_dh_peer c) (c_dh_peer_len c) (c_dh_secret c) (c_dh_secret_len c) (c_is_init c) (c_oscore_ok c) (c_status c) (c_message c) (c_role c) (c_th_state c) (c_th c) (c_th_len c) (c_prk_state c) (c_prk c) (c_prk_len c) (c_ead c) (c_keys c) (c_crypto c) (c_cred c) (c_tokens c) (c_user c) (c_error c).
Definition set_methods (v : list Z) (c : ctx) : ctx :=
  Ctx (c_chosen_method c) v (c_method_len c) (c_csuite_idx c) (c_csuites c) (c_csuite_len c) (c_peer_csuites c) (c_peer_csuite_len c) (c_cid c) (c_peer_cid c) (c_dh_pub c) (c_dh_pub_len c) (c_dh_priv c) (c_dh_priv_len c) (c_dh_peer c) (c_dh_peer_len c) (c_dh_secret c) (c_dh_secret_len c) (c_is_init c) (c_oscore_ok c) (c_status c) (c_message c) (c_role c) (c_th_state c) (c_th c) (c_th_len c) (c_prk_state c) (c_prk c) (c_prk_len c) (c_ead c) (c_keys c) (c_crypto c) (c_cred c) (c_tokens c) (c_user c) (c_error c).
Definition set_method_len (v : Z) (c : ctx) : ctx :=
  Ctx (c_chosen_method c) (c_methods c) v (c_csuite_idx c) (c_csuites c) (c_csuite_len c) (c_peer_csuites c) (c_peer_csuite_len c) (c_cid c) (c_peer_cid c) (c_dh_pub c) (c_dh_pub_len c) (c_dh_priv c) (c_dh_priv_len c) (c_dh_peer c) (c_dh_peer_len c) (c_dh_secret c) (c_dh_secret_len c) (c_is_init c) (c_oscore_ok c) (c_status c) (c_message c) (c_role c) (c_th_state c) (c_th c) (c_th_len c) (c_prk_state c) (c_prk c) (c_prk_len c) (c_ead c) (c_keys c) (c_crypto c) (c_cred c) (c_tokens c) (c_user c) (c_error c).
Definition set_csuite_idx (v : Z) (c : ctx) : ctx :=
  Ctx (c_chosen_method c) (c_methods c) (c_method_len c) v (c_csuites c) (c_csuite_len c) (c_peer_csuites c) (c_peer_csuite_len c) (c_cid c) (c_peer_cid c) (c_dh_pub c) (c_dh_pub_len c) (c_dh_priv c) (c_dh_priv_len c) (c_dh_peer c) (c_dh_peer_len c) (c_dh_secret c) (c_dh_secret_len c) (c_is_init c) (c_oscore_ok c) (c_status c) (c_message c) (c_role c) (c_th_state c) (c_th c) (c_th_len c) (c_prk_state c) (c_prk c) (c_prk_len c) (c_ead c) (c_keys c) (c_crypto c) (c_cred c) (c_tokens c) (c_user c) (c_error c).
Definition set_csuites (v : list csuite) (c : ctx) : ctx :=
  Ctx (c_chosen_method c) (c_methods c) (c_method_len c) (c_csuite_idx c) v (c_csuite_len c) (c_peer_csuites c) (c_peer_csuite_len c) (c_cid c) (c_peer_cid c) (c_dh_pub c) (c_dh_pub_len c) (c_dh_priv c) (c_dh_priv_len c) (c_dh_peer c) (c_dh_peer_len c) (c_dh_secret c) (c_dh_secret_len c) (c_is_init c) (c_oscore_ok c) (c_status c) (c_message c) (c_role c) (c_th_state c) (c_th c) (c_th_len c) (c_prk_state c) (c_prk c) (c_prk_len c) (c_ead c) (c_keys c) (c_crypto c) (c_cred c) (c_tokens c) (c_user c) (c_error c).
Definition set_csuite_len (v : Z) (c : ctx) : ctx :=
  Ctx (c_chosen_method c) (c_methods c) (c_method_len c) (c_csuite_idx c) (c_csuites c) v (c_peer_csuites c) (c_peer_csuite_len c) (c_cid c) (c_peer_cid c) (c_dh_pub c) (c_dh_pub_len c) (c_dh_priv c) (c_dh_priv_len c) (c_dh_peer c) (c_dh_peer_len c) (c_dh_secret c) (c_dh_secret_len c) (c_is_init c) (c_oscore_ok c) (c_status c) (c_message c) (c_role c) (c_th_state c) (c_th c) (c_th_len c) (c_prk_state c) (c_prk c) (c_prk_len c) (c_ead c) (c_keys c) (c_crypto c) (c_cred c) (c_tokens c) (c_user c) (c_error c).
Definition set_peer_csuites (v : list Z) (c : ctx) : ctx :=
  Ctx (c_chosen_method c) (c_methods c) (c_method_len c) (c_csuite_idx c) (c_csuites c) (c_csuite_len c) v (c_peer_csuite_len c) (c_cid c) (c_peer_cid c) (c_dh_pub c) (c_dh_pub_len c) (c_dh_priv c) (c_dh_priv_len c) (c_dh_peer c) (c_dh_peer_len c) (c_dh_secret c) (c_dh_secret_len c) (c_is_init c) (c_oscore_ok c) (c_status c) (c_message c) (c_role c) (c_th_state c) (c_th c) (c_th_len c) (c_prk_state c) (c_prk c) (c_prk_len c) (c_ead c) (c_keys c) (c_crypto c) (c_cred c) (c_tokens c) (c_user c) (c_error c).
Definition set_peer_csuite_len (v : Z) (c : ctx) : ctx :=
  Ctx (c_chosen_method c) (c_methods c) (c_method_len c) (c_csuite_idx c) (c_csuites c) (c_csuite_len c) (c_peer_csuites c) v (c_cid c) (c_peer_cid c) (c_dh_pub c) (c_dh_pub_len c) (c_dh_priv c) (c_dh_priv_len c) (c_dh_peer c) (c_dh_peer_len c) (c_dh_secret c) (c_dh_secret_len c) (c_is_init c) (c_oscore_ok c) (c_status c) (c_message c) (c_role c) (c_th_state c) (c_th c) (c_th_len c) (c_prk_state c) (c_prk c) (c_prk_len c) (c_ead c) (c_keys c) (c_crypto c) (c_cred c) (c_tokens c) (c_user c) (c_error c).
Definition set_cid (v : conn_id) (c : ctx) : ctx :=
  Ctx (c_chosen_method c) (c_methods c) (c_method_len c) (c_csuite_idx c) (c_csuites c) (c_csuite_len c) (c_peer_csuites c) (c_peer_csuite_len c) v (c_peer_cid c) (c_dh_pub c) (c_dh_pub_len c) (c_dh_priv c) (c_dh_priv_len c) (c_dh_peer c) (c_dh_peer_len c) (c_dh_secret c) (c_dh_secret_len c) (c_is_init c) (c_oscore_ok c) (c_status c) (c_message c) (c_role c) (c_th_state c) (c_th c) (c_th_len c) (c_prk_state c) (c_prk c) (c_prk_len c) (c_ead c) (c_keys c) (c_crypto c) (c_cred c) (c_tokens c) (c_user c) (c_error c).
Definition set_peer_cid (v : conn_id) (c : ctx) : ctx :=
  Ctx (c_chosen_method c) (c_methods c) (c_method_len c) (c_csuite_idx c) (c_csuites c) (c_csuite_len c) (c_peer_csuites c) (c_peer_csuite_len c) (c_cid c) v (c_dh_pub c) (c_dh_pub_len c) (c_dh_priv c) (c_dh_priv_len c) (c_dh_peer c) (c_dh_peer_len c) (c_dh_secret c) (c_dh_secret_len c) (c_is_init c) (c_oscore_ok c) (c_status c) (c_message c) (c_role c) (c_th_state c) (c_th c) (c_th_len c) (c_prk_state c) (c_prk c) (c_prk_len c) (c_ead c) (c_keys c) (c_crypto c) (c_cred c) (c_tokens c) (c_user c) (c_error c).
Definition set_dh_pub (v : bytes) (c : ctx) : ctx :=
  Ctx (c_chosen_method c) (c_methods c) (c_method_len c) (c_csuite_idx c) (c_csuites c) (c_csuite_len c) (c_peer_csuites c) (c_peer_csuite_len c) (c_cid c) (c_peer_cid c) v (c_dh_pub_len c) (c_dh_priv c) (c_dh_priv_len c) (c_dh_peer c) (c_dh_peer_len c) (c_dh_secret c) (c_dh_secret_len c) (c_is_init c) (c_oscore_ok c) (c_status c) (c_message c) (c_role c) (c_th_state c) (c_th c) (c_th_len c) (c_prk_state c) (c_prk c) (c_prk_len c) (c_ead c) (c_keys c) (c_crypto c) (c_cred c) (c_tokens c) (c_user c) (c_error c).
Definition set_dh_pub_len (v : Z) (c : ctx) : ctx :=
  Ctx (c_chosen_method c) (c_methods c) (c_method_len c) (c_csuite_idx c) (c_csuites c) (c_csuite_len c) (c_peer_csuites c) (c_peer_csuite_len c) (c_cid c) (c_peer_cid c) (c_dh_pub c) v (c_dh_priv c) (c_dh_priv_len c) (c_dh_peer c) (c_dh_peer_len c) (c_dh_secret c) (c_dh_secret_len c) (c_is_init c) (c_oscore_ok c) (c_status c) (c_message c) (c_role c) (c_th_state c) (c_th c) (c_th_len c) (c_prk_state c) (c_prk c) (c_prk_len c) (c_ead c) (c_keys c) (c_crypto c) (c_cred c) (c_tokens c) (c_user c) (c_error c).
Definition set_dh_priv (v : bytes) (c : ctx) : ctx :=
  Ctx (c_chosen_method c) (c_methods c) (c_method_len c) (c_csuite_idx c) (c_csuites c) (c_csuite_len c) (c_peer_csuites c) (c_peer_csuite_len c) (c_cid c) (c_peer_cid c) (c_dh_pub c) (c_dh_pub_len c) v (c_dh_priv_len c) (c_dh_peer c) (c_dh_peer_len c) (c_dh_secret c) (c_dh_secret_len c) (c_is_init c) (c_oscore_ok c) (c_status c) (c_message c) (c_role c) (c_th_state c) (c_th c) (c_th_len c) (c_prk_state c) (c_prk c) (c_prk_len c) (c_ead c) (c_keys c) (c_crypto c) (c_cred c) (c_tokens c) (c_user c) (c_error c).
Definition set_dh_priv_len (v : Z) (c : ctx) : ctx :=
  Ctx (c_chosen_method c) (c_methods c) (c_method_len c) (c_csuite_idx c) (c_csuites c) (c_csuite_len c) (c_peer_csuites c) (c_peer_csuite_len c) (c_cid c) (c_peer_cid c) (c_dh_pub c) (c_dh_pub_len c) (c_dh_priv c) v (c_dh_peer c) (c_dh_peer_len c) (c_dh_secret c) (c_dh_secret_len c) (c_is_init c) (c_oscore_ok c) (c_status c) (c_message c) (c_role c) (c_th_state c) (c_th c) (c_th_len c) (c_prk_state c) (c_prk c) (c_prk_len c) (c_ead c) (c_keys c) (c_crypto c) (c_cred c) (c_tokens c) (c_user c) (c_error c).
Definition set_dh_peer (v : bytes) (c : ctx) : ctx :=
  Ctx (c_chosen_method c) (c_methods c) (c_method_len c) (c_csuite_idx c) (c_csuites c) (c_csuite_len c) (c_peer_csuites c) (c_peer_csuite_len c) (c_cid c) (c_peer_cid c) (c_dh_pub c) (c_dh_pub_len c) (c_dh_priv c) (c_dh_priv_len c) v (c_dh_peer_len c) (c_dh_secret c) (c_dh_secret_len c) (c_is_init c) (c_oscore_ok c) (c_status c) (c_message c) (c_role c) (c_th_state c) (c_th c) (c_th_len c) (c_prk_state c) (c_prk c) (c_prk_len c) (c_ead c) (c_keys c) (c_crypto c) (c_cred c) (c_tokens c) (c_user c) (c_error c).
Definition set_dh_peer_len (v : Z) (c : ctx) : ctx :=
  Ctx (c_chosen_method c) (c_methods c) (c_method_len c) (c_csuite_idx c) (c_csuites c) (c_csuite_len c) (c_peer_csuites c) (c_peer_csuite_len c) (c_cid c) (c_peer_cid c) (c_dh_pub c) (c_dh_pub_len c) (c_dh_priv c) (c_dh_priv_len c) (c_dh_peer c) v (c_dh_secret c) (c_dh_secret_len c) (c_is_init c) (c_oscore_ok c) (c_status c) (c_message c) (c_role c) (c_th_state c) (c_th c) (c_th_len c) (c_prk_state c) (c_prk c) (c_prk_len c) (c_ead c) (c_keys c) (c_crypto c) (c_cred c) (c_tokens c) (c_user c) (c_error c).
Definition set_dh_secret (v : bytes) (c : ctx) : ctx :=
  Ctx (c_chosen_method c) (c_methods c) (c_method_len c) (c_csuite_idx c) (c_csuites c) (c_csuite_len c) (c_peer_csuites c) (c_peer_csuite_len c) (c_cid c) (c_peer_cid c) (c_dh_pub c) (c_dh_pub_len c) (c_dh_priv c) (c_dh_priv_len c) (c_dh_peer c) (c_dh_peer_len c) v (c_dh_secret_len c) (c_is_init c) (c_oscore_ok c) (c_status c) (c_message c) (c_role c) (c_th_state c) (c_th c) (c_th_len c) (c_prk_state c) (c_prk c) (c_prk_len c) (c_ead c) (c_keys c) (c_crypto c) (c_cred c) (c_tokens c) (c_user c) (c_error c).
Definition set_dh_secret_len (v : Z) (c : ctx) : ctx :=
  Ctx (c_chosen_method c) (c_methods c) (c_method_len c) (c_csuite_idx c) (c_csuites c) (c_csuite_len c) (c_peer_csuites c) (c_peer_csuite_len c) (c_cid c) (c_peer_cid c) (c_dh_pub c) (c_dh_pub_len c) (c_dh_priv c) (c_dh_priv_len c) (c_dh_peer c) (c_dh_peer_len c) (c_dh_secret c) v (c_is_init c) (c_oscore_ok c) (c_status c) (c_message c) (c_role c) (c_th_state c) (c_th c) (c_th_len c) (c_prk_state c) (c_prk c) (c_prk_len c) (c_ead c) (c_keys c) (c_crypto c) (c_cred c) (c_tokens c) (c_user c) (c_error c).
Definition set_is_init (v : bool) (c : ctx) : ctx :=
  Ctx (c_chosen_method c) (c_methods c) (c_method_len c) (c_csuite_idx c) (c_csuites c) (c_csuite_len c) (c_peer_csuites c) (c_peer_csuite_len c) (c_cid c) (c_peer_cid c) (c_dh_pub c) (c_dh_pub_len c) (c_dh_priv c) (c_dh_priv_len c) (c_dh_peer c) (c_dh_peer_len c) (c_dh_secret c) (c_dh_secret_len c) v (c_oscore_ok c) (c_status c) (c_message c) (c_role c) (c_th_state c) (c_th c) (c_th_len c) (c_prk_state c) (c_prk c) (c_prk_len c) (c_ead c) (c_keys c) (c_crypto c) (c_cred c) (c_tokens c) (c_user c) (c_error c).
Definition set_oscore_ok (v : bool) (c : ctx) : ctx :=
  Ctx (c_chosen_method c) (c_methods c) (c_method_len c) (c_csuite_idx c) (c_csuites c) (c_csuite_len c) (c_peer_csuites c) (c_peer_csuite_len c) (c_cid c) (c_peer_cid c) (c_dh_pub c) (c_dh_pub_len c) (c_dh_priv c) (c_dh_priv_len c) (c_dh_peer c) (c_dh_peer_len c) (c_dh_secret c) (c_dh_secret_len c) (c_is_init c) v (c_status c) (c_message c) (c_role c) (c_th_state c) (c_th c) (c_th_len c) (c_prk_state c) (c_prk c) (c_prk_len c) (c_ead c) (c_keys c) (c_crypto c) (c_cred c) (c_tokens c) (c_user c) (c_error c).
Definition set_status (v : Z) (c : ctx) : ctx :=
  Ctx (c_chosen_method c) (c_methods c) (c_method_len c) (c_csuite_idx c) (c_csuites c) (c_csuite_len c) (c_peer_csuites c) (c_peer_csuite_len c) (c_cid c) (c_peer_cid c) (c_dh_pub c) (c_dh_pub_len c) (c_dh_priv c) (c_dh_priv_len c) (c_dh_peer c) (c_dh_peer_len c) (c_dh_secret c) (c_dh_secret_len c) (c_is_init c) (c_oscore_ok c) v (c_message c) (c_role c) (c_th_state c) (c_th c) (c_th_len c) (c_prk_state c) (c_prk c) (c_prk_len c) (c_ead c) (c_keys c) (c_crypto c) (c_cred c) (c_tokens c) (c_user c) (c_error c).
Definition set_message (v : Z) (c : ctx) : ctx :=
  Ctx (c_chosen_method c) (c_methods c) (c_method_len c) (c_csuite_idx c) (c_csuites c) (c_csuite_len c) (c_peer_csuites c) (c_peer_csuite_len c) (c_cid c) (c_peer_cid c) (c_dh_pub c) (c_dh_pub_len c) (c_dh_priv c) (c_dh_priv_len c) (c_dh_peer c) (c_dh_peer_len c) (c_dh_secret c) (c_dh_secret_len c) (c_is_init c) (c_oscore_ok c) (c_status c) v (c_role c) (c_th_state c) (c_th c) (c_th_len c) (c_prk_state c) (c_prk c) (c_prk_len c) (c_ead c) (c_keys c) (c_crypto c) (c_cred c) (c_tokens c) (c_user c) (c_error c).
Definition set_role (v : Z) (c : ctx) : ctx :=
  Ctx (c_chosen_method c) (c_methods c) (c_method_len c) (c_csuite_idx c) (c_csuites c) (c_csuite_len c) (c_peer_csuites c) (c_peer_csuite_len c) (c_cid c) (c_peer_cid c) (c_dh_pub c) (c_dh_pub_len c) (c_dh_priv c) (c_dh_priv_len c) (c_dh_peer c) (c_dh_peer_len c) (c_dh_secret c) (c_dh_secret_len c) (c_is_init c) (c_oscore_ok c) (c_status c) (c_message c) v (c_th_state c) (c_th c) (c_th_len c) (c_prk_state c) (c_prk c) (c_prk_len c) (c_ead c) (c_keys c) (c_crypto c) (c_cred c) (c_tokens c) (c_user c) (c_error c).
Definition set_th_state (v : Z) (c : ctx) : ctx :=
  Ctx (c_chosen_method c) (c_methods c) (c_method_len c) (c_csuite_idx c) (c_csuites c) (c_csuite_len c) (c_peer_csuites c) (c_peer_csuite_len c) (c_cid c) (c_peer_cid c) (c_dh_pub c) (c_dh_pub_len c) (c_dh_priv c) (c_dh_priv_len c) (c_dh_peer c) (c_dh_peer_len c) (c_dh_secret c) (c_dh_secret_len c) (c_is_init c) (c_oscore_ok c) (c_status c) (c_message c) (c_role c) v (c_th c) (c_th_len c) (c_prk_state c) (c_prk c) (c_prk_len c) (c_ead c) (c_keys c) (c_crypto c) (c_cred c) (c_tokens c) (c_user c) (c_error c).
Definition set_th (v : bytes) (c : ctx) : ctx :=
  Ctx (c_chosen_method c) (c_methods c) (c_method_len c) (c_csuite_idx c) (c_csuites c) (c_csuite_len c) (c_peer_csuites c) (c_peer_csuite_len c) (c_cid c) (c_peer_cid c) (c_dh_pub c) (c_dh_pub_len c) (c_dh_priv c) (c_dh_priv_len c) (c_dh_peer c) (c_dh_peer_len c) (c_dh_secret c) (c_dh_secret_len c) (c_is_init c) (c_oscore_ok c) (c_status c) (c_message c) (c_role c) (c_th_state c) v (c_th_len c) (c_prk_state c) (c_prk c) (c_prk_len c) (c_ead c) (c_keys c) (c_crypto c) (c_cred c) (c_tokens c) (c_user c) (c_error c).
Definition set_th_len (v : Z) (c : ctx) : ctx :=
  Ctx (c_chosen_method c) (c_methods c) (c_method_len c) (c_csuite_idx c) (c_csuites c) (c_csuite_len c) (c_peer_csuites c) (c_peer_csuite_len c) (c_cid c) (c_peer_cid c) (c_dh_pub c) (c_dh_pub_len c) (c_dh_priv c) (c_dh_priv_len c) (c_dh_peer c) (c_dh_peer_len c) (c_dh_secret c) (c_dh_secret_len c) (c_is_init c) (c_oscore_ok c) (c_status c) (c_message c) (c_role c) (c_th_state c) (c_th c) v (c_prk_state c) (c_prk c) (c_prk_len c) (c_ead c) (c_keys c) (c_crypto c) (c_cred c) (c_tokens c) (c_user c) (c_error c).
Definition set_prk_state (v : Z) (c : ctx) : ctx :=
  Ctx (c_chosen_method c) (c_methods c) (c_method_len c) (c_csuite_idx c) (c_csuites c) (c_csuite_len c) (c_peer_csuites c) (c_peer_csuite_len c) (c_cid c) (c_peer_cid c) (c_dh_pub c) (c_dh_pub_len c) (c_dh_priv c) (c_dh_priv_len c) (c_dh_peer c) (c_dh_peer_len c) (c_dh_secret c) (c_dh_secret_len c) (c_is_init c) (c_oscore_ok c) (c_status c) (c_message c) (c_role c) (c_th_state c) (c_th c) (c_th_len c) v (c_prk c) (c_prk_len c) (c_ead c) (c_keys c) (c_crypto c) (c_cred c) (c_tokens c) (c_user c) (c_error c).
Definition set_prk (v : bytes) (c : ctx) : ctx :=
  Ctx (c_chosen_method c) (c_methods c) (c_method_len c) (c_csuite_idx c) (c_csuites c) (c_csuite_len c) (c_peer_csuites c) (c_peer_csuite_len c) (c_cid c) (c_peer_cid c) (c_dh_pub c) (c_dh_pub_len c) (c_dh_priv c) (c_dh_priv_len c) (c_dh_peer c) (c_dh_peer_len c) (c_dh_secret c) (c_dh_secret_len c) (c_is_init c) (c_oscore_ok c) (c_status c) (c_message c) (c_role c) (c_th_state c) (c_th c) (c_th_len c) (c_prk_state c) v (c_prk_len c) (c_ead c) (c_keys c) (c_crypto c) (c_cred c) (c_tokens c) (c_user c) (c_error c).
Definition set_prk_len (v : Z) (c : ctx) : ctx :=
  Ctx (c_chosen_method c) (c_methods c) (c_method_len c) (c_csuite_idx c) (c_csuites c) (c_csuite_len c) (c_peer_csuites c) (c_peer_csuite_len c) (c_cid c) (c_peer_cid c) (c_dh_pub c) (c_dh_pub_len c) (c_dh_priv c) (c_dh_priv_len c) (c_dh_peer c) (c_dh_peer_len c) (c_dh_secret c) (c_dh_secret_len c) (c_is_init c) (c_oscore_ok c) (c_status c) (c_message c) (c_role c) (c_th_state c) (c_th c) (c_th_len c) (c_prk_state c) (c_prk c) v (c_ead c) (c_keys c) (c_crypto c) (c_cred c) (c_tokens c) (c_user c) (c_error c).
Definition set_ead (v : ead_fns) (c : ctx) : ctx :=
  Ctx (c_chosen_method c) (c_methods c) (c_method_len c) (c_csuite_idx c) (c_csuites c) (c_csuite_len c) (c_peer_csuites c) (c_peer_csuite_len c) (c_cid c) (c_peer_cid c) (c_dh_pub c) (c_dh_pub_len c) (c_dh_priv c) (c_dh_priv_len c) (c_dh_peer c) (c_dh_peer_len c) (c_dh_secret c) (c_dh_secret_len c) (c_is_init c) (c_oscore_ok c) (c_status c) (c_message c) (c_role c) (c_th_state c) (c_th c) (c_th_len c) (c_prk_state c) (c_prk c) (c_prk_len c) v (c_keys c) (c_crypto c) (c_cred c) (c_tokens c) (c_user c) (c_error c).
Definition set_keys (v : key_fns) (c : ctx) : ctx :=
  Ctx (c_chosen_method c) (c_methods c) (c_method_len c) (c_csuite_idx c) (c_csuites c) (c_csuite_len c) (c_peer_csuites c) (c_peer_csuite_len c) (c_cid c) (c_peer_cid c) (c_dh_pub c) (c_dh_pub_len c) (c_dh_priv c) (c_dh_priv_len c) (c_dh_peer c) (c_dh_peer_len c) (c_dh_secret c) (c_dh_secret_len c) (c_is_init c) (c_oscore_ok c) (c_status c) (c_message c) (c_role c) (c_th_state c) (c_th c) (c_th_len c) (c_prk_state c) (c_prk c) (c_prk_len c) (c_ead c) v (c_crypto c) (c_cred c) (c_tokens c) (c_user c) (c_error c).
Definition set_crypto (v : crypto_fns) (c : ctx) : ctx :=
  Ctx (c_chosen_method c) (c_methods c) (c_method_len c) (c_csuite_idx c) (c_csuites c) (c_csuite_len c) (c_peer_csuites c) (c_peer_csuite_len c) (c_cid c) (c_peer_cid c) (c_dh_pub c) (c_dh_pub_len c) (c_dh_priv c) (c_dh_priv_len c) (c_dh_peer c) (c_dh_peer_len c) (c_dh_secret c) (c_dh_secret_len c) (c_is_init c) (c_oscore_ok c) (c_status c) (c_message c) (c_role c) (c_th_state c) (c_th c) (c_th_len c) (c_prk_state c) (c_prk c) (c_prk_len c) (c_ead c) (c_keys c) v (c_cred c) (c_tokens c) (c_user c) (c_error c).
Definition set_cred (v : cred_fns) (c : ctx) : ctx :=
  Ctx (c_chosen_method c) (c_methods c) (c_method_len c) (c_csuite_idx c) (c_csuites c) (c_csuite_len c) (c_peer_csuites c) (c_peer_csuite_len c) (c_cid c) (c_peer_cid c) (c_dh_pub c) (c_dh_pub_len c) (c_dh_priv c) (c_dh_priv_len c) (c_dh_peer c) (c_dh_peer_len c) (c_dh_secret c) (c_dh_secret_len c) (c_is_init c) (c_oscore_ok c) (c_status c) (c_message c) (c_role c) (c_th_state c) (c_th c) (c_th_len c) (c_prk_state c) (c_prk c) (c_prk_len c) (c_ead c) (c_keys c) (c_crypto c) v (c_tokens c) (c_user c) (c_error c).
Definition set_tokens (v : list token) (c : ctx) : ctx :=
  Ctx (c_chosen_method c) (c_methods c) (c_method_len c) (c_csuite_idx c) (c_csuites c) (c_csuite_len c) (c_peer_csuites c) (c_peer_csuite_len c) (c_cid c) (c_peer_cid c) (c_dh_pub c) (c_dh_pub_len c) (c_dh_priv c) (c_dh_priv_len c) (c_dh_peer c) (c_dh_peer_len c) (c_dh_secret c) (c_dh_secret_len c) (c_is_init c) (c_oscore_ok c) (c_status c) (c_message c) (c_role c) (c_th_state c) (c_th c) (c_th_len c) (c_prk_state c) (c_prk c) (c_prk_len c) (c_ead c) (c_keys c) (c_crypto c) (c_cred c) v (c_user c) (c_error c).
Definition set_user (v : option Z) (c : ctx) : ctx :=
  Ctx (c_chosen_method c) (c_methods c) (c_method_len c) (c_csuite_idx c) (c_csuites c) (c_csuite_len c) (c_peer_csuites c) (c_peer_csuite_len c) (c_cid c) (c_peer_cid c) (c_dh_pub c) (c_dh_pub_len c) (c_dh_priv c) (c_dh_priv_len c) (c_dh_peer c) (c_dh_peer_len c) (c_dh_secret c) (c_dh_secret_len c) (c_is_init c) (c_oscore_ok c) (c_status c) (c_message c) (c_role c) (c_th_state c) (c_th c) (c_th_len c) (c_prk_state c) (c_prk c) (c_prk_len c) (c_ead c) (c_keys c) (c_crypto c) (c_cred c) (c_tokens c) v (c_error c).
Definition set_error (v : Z) (c : ctx) : ctx :=
  Ctx (c_chosen_method c) (c_methods c) (c_method_len c) (c_csuite_idx c) (c_csuites c) (c_csuite_len c) (c_peer_csuites c) (c_peer_csuite_len c) (c_cid c) (c_peer_cid c) (c_dh_pub c) (c_dh_pub_len c) (c_dh_priv c) (c_dh_priv_len c) (c_dh_peer c) (c_dh_peer_len c) (c_dh_secret c) (c_dh_secret_len c) (c_is_init c) (c_oscore_ok c) (c_status c) (c_message c) (c_role c) (c_th_state c) (c_th c) (c_th_len c) (c_prk_state c) (c_prk c) (c_prk_len c) (c_ead c) (c_keys c) (c_crypto c) (c_cred c) (c_tokens c) (c_user c) v.

(** The all-zero context. *)
Definition ctx0 : ctx :=
  Ctx 0 [] 0 0 [] 0 [] 0 cid0 cid0 [] 0 [] 0 [] 0 [] 0 false false 0 0 0 0 [] 0 0 [] 0 (EF None None) (KF None None) (CF None None None None None None None None None) (RF None None) [] None 0.

Ltac ctx_unfold := cbv [set_chosen_method set_methods set_method_len set_csuite_idx set_csuites set_csuite_len set_peer_csuites set_peer_csuite_len set_cid set_peer_cid set_dh_pub set_dh_pub_len set_dh_priv set_dh_priv_len set_dh_peer set_dh_peer_len set_dh_secret set_dh_secret_len set_is_init set_oscore_ok set_status set_message set_role set_th_state set_th set_th_len set_prk_state set_prk set_prk_len set_ead set_keys set_crypto set_cred set_tokens set_user set_error c_chosen_method c_methods c_method_len c_csuite_idx c_csuites c_csuite_len c_peer_csuites c_peer_csuite_len c_cid c_peer_cid c_dh_pub c_dh_pub_len c_dh_priv c_dh_priv_len c_dh_peer c_dh_peer_len c_dh_secret c_dh_secret_len c_is_init c_oscore_ok c_status c_message c_role c_th_state c_th c_th_len c_prk_state c_prk c_prk_len c_ead c_keys c_crypto c_cred c_tokens c_user c_error] in *.
