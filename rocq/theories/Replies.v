(** Vocabulary of the properties on what callbacks reply.  Specification only: no code of /repo is
    modelled here. *)
From Verif Require Import Monad.

(** The allocation was granted, or the callback reported success.  Releasing a key is left out:
    see [released]. *)
Definition granted (e : event) : Prop :=
  match e with
  | EvAlloc _ _ ok => ok = true
  | EvFree _ | EvDestroy _ _ => True
  | EvImport _ _ r _ | EvMkPair _ r _ _ | EvAgree _ _ r _ | EvSign _ _ r _ | EvVerify _ _ _ r
  | EvExtract _ _ r _ | EvExpand _ _ _ r _ | EvEncrypt _ _ _ _ r _ | EvDecrypt _ _ _ _ r _
  | EvHash _ _ r _ | EvFetch r _ | EvCredVerify _ r _ _ | EvEadCompose _ r _ | EvEadProcess _ _ r => r = OK
  end.
Definition released (e : event) : Prop := match e with EvDestroy _ r => r = OK | _ => True end.
