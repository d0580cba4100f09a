(** Vocabulary of property C79, continued: what a received message costs before the application
    has been asked about the credentials in it.  No code of /repo is modelled here. *)
From Verif Require Import Monad History Work.
From Coq Require Import List.
Import ListNotations.

(** Up to that question a second message costs one key agreement, a third one a decryption, and
    neither a verification.  The other calls do not ask. *)
Definition early_limits (a : api) : list (work * nat) :=
  match a with
  | AM2Process _ _ => [(WAgree, 1); (WExtract, 1); (WExpand, 1); (WHash, 1); (WImport, 3); (WDestroy, 3); (WEad, 1); (WBlock, 4)]
  | AM3Process _ _ => [(WExpand, 2); (WDecrypt, 1); (WImport, 3); (WDestroy, 3); (WEad, 1); (WBlock, 5)]
  | _ => limits a
  end%nat.
