(** Vocabulary of property C80: the buffers whose size the peer chooses.  No code of /repo is
    modelled here. *)
From Verif Require Import Monad Rfc Wire Received History.

(** Working buffers that take what was received: the ciphertext, the key stream of the same
    length, and the plaintext. *)
Definition takes_received (b : buf) : bool := match b with BCiphertext | BKeystream | BPlaintext => true | _ => false end.
(** A received message and the bytes of it that are not ciphertext to be decrypted: the peer's
    ephemeral key in message 2, the tag in messages 3 and 4. *)
Definition received (a : api) (s : csuite) : option (bytes * Z) :=
  match a with
  | AM2Process _ m => Some (m, cs_ecc s)
  | AM3Process _ m | AM4Process _ m => Some (m, cs_tag s)
  | _ => None
  end.
(** The byte string that opens the message has [n] bytes or more. *)
Definition reaches (n : Z) (msg : bytes) : Prop := forall b, carries msg [Bstr b] -> n <= zlen b.
(** [e] holds no question about credentials. *)
Definition unasked (e : list event) : Prop := forall x, In x e -> match x with EvCredVerify _ _ _ _ => False | _ => True end.
(** The lengths in use are not negative (they are unsigned in C). *)
Definition sized (c : ctx) : Prop :=
  0 <= c_th_len c /\ 0 <= cs_key (the_suite c) /\ 0 <= cs_iv (the_suite c) /\ 0 <= cs_ecc (the_suite c) /\ 0 <= cs_hash (the_suite c).
(** What the settings of the context account for. *)
Definition own_room (c : ctx) : Z :=
  64 + c_th_len c + cs_key (the_suite c) + cs_iv (the_suite c) + cs_ecc (the_suite c) + 2 * cs_hash (the_suite c).
(** The bytes asked for in [e]. *)
Definition claimed (e : list event) : Z := fold_right (fun x s => match x with EvAlloc _ n _ => n + s | _ => s end) 0 e.
(** Buffers asked for up to the question. *)
Definition requests (a : api) : Z := match a with AM2Process _ _ => 4 | AM3Process _ _ | AM4Process _ _ => 5 | _ => 0 end.
