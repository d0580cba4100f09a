(** What the applications of two parties may ask of the library after their handshake.

    Specification only: no code of /repo is modelled here. *)
From Verif Require Import Monad Api Common Exporter History Spec Rfc Uses Conform Received Sessions
  Safety Ready.

(** A key of [n] bytes for a label; an update of the session with fresh entropy; an OSCORE
    security context, into buffers of these sizes. *)
Inductive ask :=
| AskKey (label n : Z) | AskUpdate (entropy : bytes) | AskOscore (secret salt sid rid : Z).

(** Lengths the library can export: within HKDF's limit and, written in CBOR, no longer than the
    hash length is (see C46). *)
Definition length_ok (s : csuite) (n : Z) : Prop :=
  0 < n <= 255 * cs_hash s /\ zlen (cbor (Num n)) <= zlen (cbor (Num (cs_hash s))).
(** Labels for OSCORE and for private use (RFC 9528 10.1). *)
Definition label_ok (label : Z) : Prop := label = 0 \/ label = 1 \/ 32768 <= label <= 65535.
(** A sequence of requests that keeps the rules: after an OSCORE export the session has to be
    updated before the next one.  [fresh]: an OSCORE export is allowed now. *)
Fixpoint fair (s : csuite) (own peer : cid) (fresh : bool) (l : list ask) : Prop :=
  match l with
  | [] => True
  | AskKey label n :: l' => label_ok label /\ length_ok s n /\ fair s own peer fresh l'
  | AskUpdate e :: l' => 0 < zlen e <= 65535 /\ fair s own peer true l'
  | AskOscore a b c d :: l' =>
    fresh = true /\ length_ok s a /\ length_ok s b /\
    0 < c /\ zlen (oscore_bytes peer) <= c /\ 0 < d /\ zlen (oscore_bytes own) <= d /\
    fair s own peer false l'
  end.
(** All requests succeed.  [key past label n] is the key both parties are to get once the session
    was updated with the entropies [past]. *)
Fixpoint serves {E : env} (key : list bytes -> Z -> Z -> bytes) (own peer : cid)
    (past : list bytes) (w : world) (l : list ask) : Prop :=
  match l with
  | [] => True
  | AskKey label n :: l' => exists w',
    do_api (AExport true label n) w = Ret (OK, OBytes (key past label n)) w' /\
    serves key own peer past w' l'
  | AskUpdate e :: l' => exists w',
    do_api (AKeyUpdate true e) w = Ret (OK, ONone) w' /\ serves key own peer (past ++ [e]) w' l'
  | AskOscore a b c d :: l' => exists w',
    do_api (AOscore true a b c d) w = Ret (OK, OOscore (OSC (key past 0 a) (key past 1 b)
      (oscore_bytes peer) (oscore_bytes own))) w' /\
    serves key own peer past w' l'
  end.
(** Whatever the two parties ask for, in whatever order, each gets; and the keys are the same
    on both sides. *)
Definition in_service (EI ER : env) (s : csuite) (key : list bytes -> Z -> Z -> bytes)
    (ci cr : cid) (wi wr : world) : Prop :=
  (forall l, fair s ci cr true l -> @serves EI key ci cr [] wi l) /\
  (forall l, fair s cr ci true l -> @serves ER key cr ci [] wr l).
(** The optional fourth message, from the responder to the initiator. *)
Definition message_4 (EI ER : env) (wi wr : world) (n4 : Z) (wi' wr' : world) : Prop :=
  exists m4, @do_api ER (AM4Compose true n4) wr = Ret (OK, OBytes m4) wr' /\
             @do_api EI (AM4Process true m4) wi = Ret (OK, ONone) wi'.
