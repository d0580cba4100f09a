(** Client programs: arbitrary sequences of API calls on one context.

    [api] lists the functions of include/edhoc.h that take a context; [do_api] runs one of
    them, [runs] a whole history.  No code of /repo is added here. *)
From Verif Require Import Monad Api Common Msg1 Msg2 Msg3 Msg4 Exporter.

Inductive api :=
| AInit | ADeinit
| AMethods (m : option (list Z)) | ASuites (s : option (list csuite)) | ACid (i : option conn_id)
| AUser (u : option Z) | ABindEad (e : option ead_fns) | ABindKeys (k : option key_fns)
| ABindCrypto (k : option crypto_fns) | ABindCred (k : option cred_fns)
| AM1Compose (nn : bool) (size : Z) | AM1Process (nn : bool) (msg : bytes)
| AM2Compose (nn : bool) (size : Z) | AM2Process (nn : bool) (msg : bytes)
| AM3Compose (nn : bool) (size : Z) | AM3Process (nn : bool) (msg : bytes)
| AM4Compose (nn : bool) (size : Z) | AM4Process (nn : bool) (msg : bytes)
| AExport (nn : bool) (label n : Z) | AKeyUpdate (nn : bool) (entropy : bytes)
| AOscore (nn : bool) (n_sec n_salt n_sid n_rid : Z)
| AErrCode (nn : bool) | AErrSuites (nn : bool) (size peer_size : Z).

(** What a call hands back besides its return value. *)
Inductive out :=
| ONone | OBytes (b : bytes) | OOscore (o : oscore) | OCode (c : option Z)
| OSuites (own peer : option (list Z)).

Section History.
Context {E : env}.

(** A configuration call as a program. *)
Definition cfg (f : ctx -> Z * ctx) : M (Z * out) :=
  c <- getc ;; let (r, c') := f c in modify (fun _ => c') ;;; ret (r, ONone).
Definition msg_out (m : M (Z * bytes)) : M (Z * out) := '(r, b) <- m ;; ret (r, OBytes b).
Definition no_out (m : M Z) : M (Z * out) := r <- m ;; ret (r, ONone).

Definition do_api (a : api) : M (Z * out) :=
  match a with
  | AInit => cfg context_init
  | ADeinit => cfg context_deinit
  | AMethods m => cfg (set_methods_call m)
  | ASuites s => cfg (set_cipher_suites_call s)
  | ACid i => cfg (set_connection_id_call i)
  | AUser u => cfg (set_user_context_call u)
  | ABindEad e => cfg (bind_ead_call e)
  | ABindKeys k => cfg (bind_keys_call k)
  | ABindCrypto k => cfg (bind_crypto_call k)
  | ABindCred k => cfg (bind_credentials_call k)
  | AM1Compose nn n => msg_out (message_1_compose nn n)
  | AM1Process nn m => no_out (message_1_process nn m)
  | AM2Compose nn n => msg_out (message_2_compose nn n)
  | AM2Process nn m => no_out (message_2_process nn m)
  | AM3Compose nn n => msg_out (message_3_compose nn n)
  | AM3Process nn m => no_out (message_3_process nn m)
  | AM4Compose nn n => msg_out (message_4_compose nn n)
  | AM4Process nn m => no_out (message_4_process nn m)
  | AExport nn l n => msg_out (export_prk_exporter nn l n)
  | AKeyUpdate nn e => no_out (export_key_update nn e)
  | AOscore nn a b c d => '(r, o) <- export_oscore_session nn a b c d ;; ret (r, OOscore o)
  | AErrCode nn => c <- getc ;; let (r, o) := error_get_code nn c in ret (r, OCode o)
  | AErrSuites nn n p =>
    c <- getc ;; let '(r, o, q) := error_get_cipher_suites nn n p c in ret (r, OSuites o q)
  end.

(** A history: every call with its result, oldest first. *)
Fixpoint runs (l : list api) : M (list (api * (Z * out))) :=
  match l with
  | [] => ret []
  | a :: l' => r <- do_api a ;; rs <- runs l' ;; ret ((a, r) :: rs)
  end.
End History.
