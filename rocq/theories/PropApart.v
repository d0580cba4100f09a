(** Property C74: sessions on different contexts do not disturb each other.  Vocabulary in Spec.v
    and Interleave.v. *)
From Verif Require Import Monad Api Common Exporter History Spec Interleave IsoProofs Demo DemoX DemoZ PropReply PropExport.

(** The demonstration initiator and responder in one process, call by call in turn: all twenty
    calls succeed, the log holds the 81 events of each, and these callbacks look at no history. *)
Fixpoint in_turn (l l' : list api) : list (nat * api) :=
  match l, l' with
  | a :: l, b :: l' => (0%nat, a) :: (1%nat, b) :: in_turn l l'
  | l, [] => map (pair 0%nat) l
  | [], l => map (pair 1%nat) l
  end.
Definition results (o : outcome) : list Z := match o with Finished rs _ => map (fun x => fst (snd (snd x))) rs | _ => [] end.
Definition logged (o : outcome) (i : nat) : list event := match o with Finished _ s => own i (s_log s) | _ => [] end.
Definition both := in_turn hist_i3 hist_r3.
Definition blanks := Sys (fun _ => w_ctx blank) [].
Example apart_cases :
  let o := @schedule e0 both blanks in
  results o = repeat OK 20 /\ logged o 0 = w_tr done_i /\ logged o 1 = w_tr done_r /\ length (w_tr done_i) = 81%nat /\
  own 0 both = hist_i3 /\ own 1 both = hist_r3 /\ forall phi, heard phi e0 = e0.
Proof. cbv zeta. repeat (split; [vm_compute; reflexivity|]). reflexivity. Qed.
(** Callbacks that do look at the history, of which the first derivation of PRK_out fails: the
    exporter of context 1 fails on its own and succeeds after that of context 0 has failed. *)
Definition export := AExport true 40000 16.
Example apart_history :
  results (@schedule fails_once (both ++ [(1%nat, export)]) blanks) = repeat OK 20 ++ [E_PRK] /\
  results (@schedule fails_once (both ++ [(0%nat, export); (1%nat, export)]) blanks) = repeat OK 20 ++ [E_PRK; OK].
Proof. split; vm_compute; reflexivity. Qed.

(** ** C74 *)
(** However the calls on any number of contexts are interleaved, each context gets the results,
    ends in the state and makes the callback invocations of its own calls run alone, with
    callbacks that answer it as they answered in the process; and a call is undefined only if
    it is so in such a run. *)
Theorem C74_apart : forall (E : env) l cs, match schedule l (Sys cs []) with
  | Finished rs s => forall i, exists phi,
      @runs (heard phi E) (own i l) (Wd (cs i) []) = Ret (own i rs) (Wd (s_ctx s i) (own i (s_log s)))
  | Undefined j u => exists phi l1 a l2, l = l1 ++ (j, a) :: l2 /\
      @runs (heard phi E) (own j (l1 ++ [(j, a)])) (Wd (cs j) []) = Ub u
  end.
Proof. exact @apart. Qed.
Print Assumptions C74_apart.
(** So whatever holds for every history of calls on one context, with all callbacks, holds for
    each context of a process in any interleaving. *)
Theorem C74_transfer : forall (E : env) (P : list api -> list (api * (Z * out)) -> world -> Prop) c,
  (forall (E' : env) l rs w, runs l (Wd c []) = Ret rs w -> P l rs w) ->
  forall l cs rs s i, cs i = c -> schedule l (Sys cs []) = Finished rs s ->
  P (own i l) (own i rs) (Wd (s_ctx s i) (own i (s_log s))).
Proof. exact @transfer. Qed.
Print Assumptions C74_transfer.
(** With callbacks that do not look at the history, a context in a process behaves exactly as if
    it were alone. *)
Theorem C74_oblivious : forall (E : env), (forall phi, heard phi E = E) ->
  forall l cs rs s, schedule l (Sys cs []) = Finished rs s ->
  forall i, runs (own i l) (Wd (cs i) []) = Ret (own i rs) (Wd (s_ctx s i) (own i (s_log s))).
Proof. exact @oblivious. Qed.
Print Assumptions C74_oblivious.
