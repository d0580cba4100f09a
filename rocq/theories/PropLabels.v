(** Property C72: every handshake key is derived once, and keys with different purposes are derived
    from different inputs.  Vocabulary in Spec.v, Rfc.v and Attempts.v. *)
From Verif Require Import Monad Api Common Exporter History Spec Rfc Attempts LabelProofs Demo DemoX DemoZ PropReply PropExport PropAttempts.

(** The demonstration parties, who sign (method 0): KEYSTREAM_2, MAC_2, K_3, IV_3 and MAC_3 are
    derived once each. *)
Example label_cases : @reachable e0 opened /\ w_tr opened = [] /\
  (exists rs, @runs e0 (tl hist_i3) opened = Ret rs done_i) /\ ~ In AInit (tl hist_i3) /\
  map (fun L => count (derives L) (w_tr done_i)) [0; 1; 2; 3; 4; 5; 6; 8; 9] = [1; 0; 1; 1; 1; 0; 1; 0; 0] /\
  map (fun L => count (derives L) (w_tr done_r)) [0; 1; 2; 3; 4; 5; 6; 8; 9] = [1; 0; 1; 1; 1; 0; 1; 0; 0].
Proof.
  destruct count_cases as (A & B & C & D & _). split; [exact A|]. split; [exact B|]. split; [exact C|]. split; [exact D|].
  split; vm_compute; reflexivity.
Qed.

(** ** C72 *)
(** Every key derivation of every call, with any outcome, asks for the RFC 9528 info of a label, a
    context and a length. *)
Theorem C72_infos : forall (E : env) l w rs w' e kid i n r o,
  runs l w = Ret rs w' -> w_tr w' = e ++ w_tr w -> In (EvExpand kid i n r o) e ->
  exists label context len, 0 <= label <= 65535 /\ 0 <= len < 2 ^ 32 /\ i = info label context len.
Proof. exact (@infos). Qed.
Print Assumptions C72_infos.
(** Infos with another label, context or length are other inputs. *)
Theorem C72_separate : forall l c n l' c' n', 0 <= l <= 65535 -> 0 <= l' <= 65535 -> 0 <= n < 2 ^ 32 -> 0 <= n' < 2 ^ 32 ->
  zlen (info l c n) < 2 ^ 64 -> info l c n = info l' c' n' -> l = l' /\ c = c' /\ n = n'.
Proof. exact infos_apart. Qed.
Print Assumptions C72_separate.
(** [derives L] finds the infos with label [L] and a context. *)
Theorem C72_label : forall L l c n kid m r o, 0 <= L < 24 -> 0 <= l <= 65535 -> zlen c < 2 ^ 64 ->
  (derives L (EvExpand kid (info l c n) m r o) = true <-> l = L /\ c <> []).
Proof. exact label_meaning. Qed.
Print Assumptions C72_label.
(** Until the context is initialised again, whatever is called: each of KEYSTREAM_2, SALT_3e2m,
    MAC_2, K_3, IV_3, SALT_4e3m, MAC_3, K_4 and IV_4 is derived at most once. *)
Theorem C72_once : forall (E : env) l w rs w' e L,
  reachable w -> ~ In AInit l -> runs l w = Ret rs w' -> w_tr w' = e ++ w_tr w ->
  0 <= L <= 9 -> L <> PRK_out -> count (derives L) e <= 1.
Proof. exact (@labels_once). Qed.
Print Assumptions C72_once.
(** PRK_out is the exception: an export that failed while deriving it derives it again. *)
Theorem C72_prk_out_refuted : exists (E : env) l w rs w' e, reachable w /\ ~ In AInit l /\ runs l w = Ret rs w' /\ w_tr w' = e ++ w_tr w /\
  count (derives PRK_out) e = 2.
Proof.
  exists fails_once, [AExport true 32768 16; AExport true 32768 16], done_i.
  ex (rs_of (@runs fails_once [AExport true 32768 16; AExport true 32768 16] done_i)).
  ex (world_of (@runs fails_once [AExport true 32768 16; AExport true 32768 16] done_i) blank).
  ex (@events_of fails_once [AExport true 32768 16; AExport true 32768 16] done_i).
  split; [exact done_fails_once|]. split; [cbn; intuition discriminate|]. split; [vm_compute; reflexivity|]. split; [vm_compute; reflexivity|vm_compute; reflexivity].
Qed.
Print Assumptions C72_prk_out_refuted.
