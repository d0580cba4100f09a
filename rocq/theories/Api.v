(** library/edhoc.c: context set-up, configuration and error queries.

    Each function maps the context to (return value, new context).  A NULL [ctx] returns
    EDHOC_ERROR_INVALID_ARGUMENT at once and is not represented; other pointer arguments are
    [option]s, [None] being NULL. *)
From Verif Require Import Monad.

(** library/edhoc.c 34-46. *)
Definition context_init (_ : ctx) : Z * ctx := (OK, set_is_init true ctx0).

(** library/edhoc.c 48-63. *)
Definition context_deinit (c : ctx) : Z * ctx :=
  if negb (c_is_init c) then (E_BAD_STATE, c) else (OK, ctx0).

(** library/edhoc.c 65-83. *)
Definition set_methods_call (m : option (list Z)) (c : ctx) : Z * ctx :=
  match m with
  | None => (E_INVALID_ARG, c)
  | Some l =>
    if (zlen l =? 0) || (METHOD_MAX <? zlen l) then (E_INVALID_ARG, c)
    else if negb (c_is_init c) then (E_BAD_STATE, c)
    else (OK, set_methods (blit (c_methods c) l) (set_method_len (zlen l) c))
  end.

Section Cfg.
Context {E : env}.

(** library/edhoc.c 85-108. *)
Definition set_cipher_suites_call (s : option (list csuite)) (c : ctx) : Z * ctx :=
  match s with
  | None => (E_INVALID_ARG, c)
  | Some l =>
    if zlen l =? 0 then (E_INVALID_ARG, c)
    else if negb (c_is_init c) then (E_BAD_STATE, c)
    else if cf_max_suites <? zlen l then (E_BAD_STATE, c)
    else (OK, set_csuites (blit (c_csuites c) l) (set_csuite_len (zlen l) c))
  end.

(** library/edhoc.c 110-152. *)
Definition set_connection_id_call (i : option conn_id) (c : ctx) : Z * ctx :=
  match i with
  | None => (E_INVALID_ARG, c)
  | Some i =>
    if negb (c_is_init c) then (E_BAD_STATE, c)
    else if cid_type i =? CID_INT then
      if (cid_int i <? -24) || (23 <? cid_int i) then (E_BAD_STATE, c)
      else (OK, set_cid i c)
    else if cid_type i =? CID_BSTR then
      if zlen (cid_bstr i) =? 0 then (E_BAD_STATE, c)
      else if cf_max_cid <? zlen (cid_bstr i) then (E_BAD_STATE, c)
      else (OK, set_cid i c)
    else (E_BAD_STATE, c)
  end.
End Cfg.

(** library/edhoc.c 154-169. *)
Definition set_user_context_call (u : option Z) (c : ctx) : Z * ctx :=
  match u with
  | None => (E_INVALID_ARG, c)
  | Some u => if negb (c_is_init c) then (E_BAD_STATE, c) else (OK, set_user (Some u) c)
  end.

Definition is_none {A} (o : option A) : bool := match o with None => true | Some _ => false end.

(** library/edhoc.c 171-191. *)
Definition bind_ead_call (e : option ead_fns) (c : ctx) : Z * ctx :=
  match e with
  | None => (E_INVALID_ARG, c)
  | Some e =>
    if negb (c_is_init c) then (E_BAD_STATE, c)
    else if is_none (f_compose e) && is_none (f_process e) then (E_BAD_STATE, c)
    else (OK, set_ead e c)
  end.

(** library/edhoc.c 193-213. *)
Definition bind_keys_call (k : option key_fns) (c : ctx) : Z * ctx :=
  match k with
  | None => (E_INVALID_ARG, c)
  | Some k =>
    if negb (c_is_init c) then (E_BAD_STATE, c)
    else if is_none (f_import k) || is_none (f_destroy k) then (E_BAD_STATE, c)
    else (OK, set_keys k c)
  end.

(** library/edhoc.c 215-240. *)
Definition bind_crypto_call (k : option crypto_fns) (c : ctx) : Z * ctx :=
  match k with
  | None => (E_INVALID_ARG, c)
  | Some k =>
    if negb (c_is_init c) then (E_BAD_STATE, c)
    else if is_none (f_mkpair k) || is_none (f_agree k) || is_none (f_sign k)
         || is_none (f_verify k) || is_none (f_extract k) || is_none (f_expand k)
         || is_none (f_encrypt k) || is_none (f_decrypt k) || is_none (f_hash k)
    then (E_BAD_STATE, c)
    else (OK, set_crypto k c)
  end.

(** library/edhoc.c 242-263. *)
Definition bind_credentials_call (k : option cred_fns) (c : ctx) : Z * ctx :=
  match k with
  | None => (E_INVALID_ARG, c)
  | Some k =>
    if negb (c_is_init c) then (E_BAD_STATE, c)
    else if is_none (f_fetch k) || is_none (f_cverify k) then (E_BAD_STATE, c)
    else (OK, set_cred k c)
  end.

(** library/edhoc.c 265-280: return value and code written; [nonnull] = code pointer valid. *)
Definition error_get_code (nonnull : bool) (c : ctx) : Z * option Z :=
  if negb nonnull then (E_INVALID_ARG, None)
  else if negb (c_is_init c) then (E_BAD_STATE, None)
  else (OK, Some (c_error c)).

(** library/edhoc.c 282-326: return value, what was written to [csuites]/[csuites_len] and
    to [peer_csuites]/[peer_csuites_len].  [nonnull] = all four pointers valid. *)
Definition error_get_cipher_suites (nonnull : bool) (size peer_size : Z) (c : ctx)
  : Z * option (list Z) * option (list Z) :=
  if negb nonnull || (size =? 0) || (peer_size =? 0) then (E_INVALID_ARG, None, None)
  else if negb (c_is_init c) then (E_BAD_STATE, None, None)
  else if negb (c_error c =? EC_WRONG_SUITE) then (E_BAD_STATE, None, None)
  else if size <? c_csuite_len c then (E_TOO_SMALL, None, None)
  else
    let own := map (fun i => cs_value (nth i (c_csuites c) csuite0))
                   (seq 0 (Z.to_nat (c_csuite_len c))) in
    if peer_size <? c_peer_csuite_len c then (E_TOO_SMALL, Some own, None)
    else (OK, Some own,
          Some (map (fun i => nth i (c_peer_csuites c) 0)
                    (seq 0 (Z.to_nat (c_peer_csuite_len c))))).
