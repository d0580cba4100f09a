(** One attempt per session: which message a call is about, and events that cost or risk something.
    Specification only: no code of /repo is modelled here. *)
From Verif Require Import Monad History Spec.

(** The number of the message that a message call composes or processes. *)
Definition message_of (k : mkind) : Z :=
  match k with M1c | M1p => 1 | M2c | M2p => 2 | M3c | M3p => 3 | M4c | M4p => 4 end.
(** Callback calls in a trace, whatever they answered. *)
Definition makes_pair (e : event) : bool := match e with EvMkPair _ _ _ _ => true | _ => false end.
Definition signs (e : event) : bool := match e with EvSign _ _ _ _ => true | _ => false end.
Definition verifies (e : event) : bool := match e with EvVerify _ _ _ _ => true | _ => false end.
Definition encrypts (e : event) : bool := match e with EvEncrypt _ _ _ _ _ _ => true | _ => false end.
Definition decrypts (e : event) : bool := match e with EvDecrypt _ _ _ _ _ _ => true | _ => false end.
Definition fetches (e : event) : bool := match e with EvFetch _ _ => true | _ => false end.
Definition checks (e : event) : bool := match e with EvCredVerify _ _ _ _ => true | _ => false end.
Definition ead_asked (e : event) : bool := match e with EvEadCompose _ _ _ | EvEadProcess _ _ _ => true | _ => false end.
Definition count (P : event -> bool) (t : list event) : Z := zlen (filter P t).
(** Keys derived under label [L] (one of those below 24) with a context that is not empty: the info
    starts with the label, and no empty byte string (0x40) follows. *)
Definition derives (L : Z) (e : event) : bool :=
  match e with EvExpand _ (x :: y :: _) _ _ _ => (x =? L) && negb (y =? 64) | _ => false end.
