(** Vocabulary of the properties about exports, negotiation and memory.

    Specification only: no code of /repo is modelled here. *)
From Verif Require Import Monad History Spec Rfc Uses.

(** ** Exports *)
(** Successful expansions in [t] are the function [f] of the key, the info and the length, and
    fill their buffers. *)
Definition expand_fn (f : bytes -> bytes -> Z -> bytes) (t : list event) : Prop :=
  forall kid i n o prk, with_key t (EvExpand kid i n OK o) kid KT_EXPAND prk ->
    o = f prk i n /\ zlen o = n.
(** Labels an application may export under (RFC 9528 10.1: OSCORE and private use). *)
Definition public_label (label : Z) : Prop := label = 0 \/ label = 1 \/ 32768 <= label <= 65535.
(** Two contexts that differ at most in the PRK and its state. *)
Definition only_prk (c c' : ctx) : Prop := exists q z, c' = set_prk_state z (set_prk q c).
Definition is_export (a : api) : bool := match a with AExport _ _ _ => true | _ => false end.
(** Calls that may replace the session's keys or its cipher suite: everything else must not. *)
Definition rekeys (a : api) : bool :=
  match a with AInit | ADeinit | ASuites _ | AKeyUpdate _ _ => true | _ => false end.
(** Successful message calls that include the one which authenticated the peer: an initiator
    verifies the responder in message 2, a responder the initiator in message 3. *)
Definition authenticated (s : list mkind) : Prop :=
  s = [M1c; M2p] \/ s = [M1c; M2p; M3c] \/ s = [M1p; M2c; M3p].
Definition is_m4 (a : api) : bool := match a with AM4Compose _ _ | AM4Process _ _ => true | _ => false end.
(** No allocation and no key import or expand callback failed. *)
Definition helpful (t : list event) : Prop :=
  (forall b n, ~ In (EvAlloc b n false) t) /\
  (forall kt k r kid, In (EvImport kt k r kid) t -> r = OK) /\
  (forall kid i n r o, In (EvExpand kid i n r o) t -> r = OK).

(** ** Negotiation *)
(** Answers of the process and hash callbacks that let a message through. *)
Definition passes (e : list event) : Prop :=
  (forall m k r, In (EvEadProcess m k r) e -> r = OK) /\
  (forall x n r o, In (EvHash x n r o) e -> r = OK /\ zlen o = n).
(** Methods and cipher suites the application configured. *)
Definition my_methods (c : ctx) : list Z := take (c_method_len c) (c_methods c).
Definition my_suites (c : ctx) : list csuite := take (c_csuite_len c) (c_csuites c).
(** An EAD item and a connection identifier that the C types can hold. *)
Definition ead_ok (e : ead) : Prop :=
  - 2 ^ 31 <= fst e < 2 ^ 31 /\ match snd e with Some v => zlen v < 2 ^ 64 | None => True end.
Definition cid_within (n : Z) (c : cid) : Prop :=
  match c with CNum v => -24 <= v <= 23 | CBytes b => zlen b <= n end.
