(** What an application sets on a context.  Specification only: no code of /repo is modelled here. *)
From Verif Require Import Monad History Spec.

(** Everything that the configuration calls store: methods, suites, connection identifier,
    callbacks and user context, and whether the context is initialised. *)
Definition settings (c : ctx) :=
  (c_is_init c, (c_methods c, c_method_len c), (c_csuites c, c_csuite_len c), c_cid c, (c_ead c, c_keys c, c_crypto c, c_cred c), c_user c).
(** Calls that set something, initialise or deinitialise. *)
Definition sets (a : api) : bool := match a with AInit | ADeinit => true | _ => is_config a end.
