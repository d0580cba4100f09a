(** Two pairs of demonstration parties, with fresh ephemeral keys.  No code of /repo is modelled here. *)
From Verif Require Import Monad Api Common Msg1 Msg2 Msg3 Msg4 Exporter Helpers History Spec Rfc Uses
  Conform Wire Received Facts Sessions Active Demo DemoX DemoA Replay.

(** Key pairs generated in a run. *)
Definition pairs_of (t : list event) : list bytes :=
  flat_map (fun e => match e with EvMkPair _ r _ pub => if r =? OK then [pub] else [] | _ => [] end) t.
Definition disjointb (t u : list event) : bool :=
  forallb (fun x => forallb (fun y => negb (beqb x y)) (pairs_of u)) (pairs_of t).
Lemma pairs_in : forall t priv pub, made t priv pub -> In pub (pairs_of t).
Proof. intros t priv pub [k H]. unfold pairs_of. apply in_flat_map. eexists. split; [exact H|]. now left. Qed.
Lemma disjoint_check : forall t u, disjointb t u = true -> forall priv priv' pub, made t priv pub -> made u priv' pub -> False.
Proof.
  intros t u H priv priv' pub A B. apply pairs_in in A, B. unfold disjointb in H. rewrite forallb_forall in H. apply H in A. rewrite forallb_forall in A. apply A in B.
  now rewrite beqb_refl in B.
Qed.

(** Two pairs of parties that use one environment. *)
Section Pairs.
Variables (E : env) (x y : pair_of_trips) (m ca cb da db : Z).
Definition one_of_four (q : session) : Prop := both E x q \/ both E y q.
Definition holders (pub : bytes) (q : session) : Prop := holder E x ca cb pub q \/ holder E y da db pub q.
Definition hashes (a : trip) : list event := ev1 a ++ ev2 a ++ ev3 a.
Definition pairs_ok : bool :=
  events_ok E y m da db && disjointb (ev1 (pt_i x)) (ev1 (pt_i y)) && disjointb (ev2 (pt_r x)) (ev2 (pt_r y)) &&
  no_collisionb (hashes (pt_i x)) (hashes (pt_i y)) && no_collisionb (hashes (pt_i x)) (hashes (pt_r y)) &&
  no_collisionb (hashes (pt_i y)) (hashes (pt_i x)) && no_collisionb (hashes (pt_i y)) (hashes (pt_r x)) &&
  no_collisionb (ev1 (pt_r x) ++ ev2 (pt_r x)) (hashes (pt_i y)) && no_collisionb (ev1 (pt_r x) ++ ev2 (pt_r x)) (hashes (pt_r y)) &&
  no_collisionb (ev1 (pt_r y) ++ ev2 (pt_r y)) (hashes (pt_i x)) && no_collisionb (ev1 (pt_r y) ++ ev2 (pt_r y)) (hashes (pt_r x)).
Lemma sub_collision : forall t u q, no_collision t q -> (forall e, In e u -> In e t) -> no_collision u q.
Proof. intros t u q H S z n z' n' w A B. exact (H _ n _ n' w (S _ A) B). Qed.
Lemma more_ciphertext : forall (P Q : session -> Prop) t, (forall q, P q -> Q q) -> no_forged_ciphertext P t -> no_forged_ciphertext Q t.
Proof. intros P Q t H F k n a c z D. destruct (F _ _ _ _ _ D) as (q & I & S). exists q. split; [now apply H|exact S]. Qed.
Lemma more_signature : forall (P Q : bytes -> session -> Prop) t, (forall k q, P k q -> Q k q) -> no_forged_signature P t -> no_forged_signature Q t.
Proof. intros P Q t H F k i s D. destruct (F _ _ _ D) as (q & I & S). exists q. split; [now apply H|exact S]. Qed.
Lemma holder_both : forall z c d pub q, holder E z c d pub q -> both E z q.
Proof. intros z c d pub q [[_ H]|[_ H]]; [left|right]; exact H. Qed.
Lemma holders_four : forall pub q, holders pub q -> one_of_four q.
Proof. intros pub q [H|H]; [left|right]; exact (holder_both _ _ _ _ _ H). Qed.
Definition two_sessions : Prop :=
  let i := [initiator_session E x; initiator_session E y] in let r := [responder_session E x; responder_session E y] in
  Forall (believes_2 holders) i /\ Forall (believes_3 one_of_four) r /\ Forall (believes_4 one_of_four) i /\
  ForallOrdPairs fresh_1 i /\ ForallOrdPairs fresh_2 r.
Lemma two_hold : responder_static m = false -> premises E x m -> nothing_forged E x m ca cb -> premises E y m -> pairs_ok = true -> two_sessions.
Proof.
  intros M PX NX PY H. unfold pairs_ok in H. do 10 (apply andb_true_iff in H as [H ?]).
  pose proof (forged_none _ _ _ _ _ H PY) as NY. clear H.
  destruct PX as (P1 & P2 & P3 & P4 & P5 & P6 & P7 & P8 & P9 & P10 & P11 & _ & P12 & P13 & _).
  destruct PY as (Q1 & Q2 & Q3 & Q4 & Q5 & Q6 & Q7 & Q8 & Q9 & Q10 & Q11 & _ & Q12 & Q13 & _).
  destruct NX as (N1 & _ & _ & _ & N2 & N3 & N4). destruct NY as (O1 & _ & _ & _ & O2 & O3 & O4).
  assert (CX : forall q, one_of_four q -> no_collision (hashes (pt_i x)) q).
  { intros q [B|[-> | ->]]; [apply N4; exact B|apply collision_check; assumption|apply collision_check; assumption]. }
  assert (CY : forall q, one_of_four q -> no_collision (hashes (pt_i y)) q).
  { intros q [[-> | ->]|B]; [apply collision_check; assumption|apply collision_check; assumption|apply O4; exact B]. }
  assert (DX : forall q, one_of_four q -> no_collision (ev1 (pt_r x) ++ ev2 (pt_r x)) q).
  { intros q [B|[-> | ->]]; [apply N4; exact B|apply collision_check; assumption|apply collision_check; assumption]. }
  assert (DY : forall q, one_of_four q -> no_collision (ev1 (pt_r y) ++ ev2 (pt_r y)) q).
  { intros q [[-> | ->]|B]; [apply collision_check; assumption|apply collision_check; assumption|apply O4; exact B]. }
  unfold two_sessions. cbv zeta. split; [|split; [|split; [|split]]].
  - constructor; [|constructor; [|constructor]].
    + split; [exact P1|]. cbn [initiator_session se]. rewrite P11, M. split; [apply (more_signature (holder E x ca cb)); [now left|now apply N1]|].
      intros pub q K. apply holders_four in K. split.
      * apply (sub_collision _ _ _ (CX _ K)). intros e I. unfold hashes. rewrite app_assoc. apply in_or_app. now left.
      * destruct K as [[-> | ->]|[-> | ->]]; [exact P12|exact P13|exact Q12|exact Q13].
    + split; [exact Q1|]. cbn [initiator_session se]. rewrite Q11, M. split; [apply (more_signature (holder E y da db)); [now right|now apply O1]|].
      intros pub q K. apply holders_four in K. split.
      * apply (sub_collision _ _ _ (CY _ K)). intros e I. unfold hashes. rewrite app_assoc. apply in_or_app. now left.
      * destruct K as [[-> | ->]|[-> | ->]]; [exact P12|exact P13|exact Q12|exact Q13].
  - constructor; [|constructor; [|constructor]].
    + split; [exact P6|]. split; [exact P7|]. split; [exact P8|]. split; [apply (more_ciphertext (both E x)); [now left|exact N2]|exact DX].
    + split; [exact Q6|]. split; [exact Q7|]. split; [exact Q8|]. split; [apply (more_ciphertext (both E y)); [now right|exact O2]|exact DY].
  - constructor; [|constructor; [|constructor]].
    + split; [split; [exact P1|]; split; [exact P2|exact P3]|]. split; [exact P4|]. split; [exact P5|]. split; [apply (more_ciphertext (both E x)); [now left|exact N3]|exact CX].
    + split; [split; [exact Q1|]; split; [exact Q2|exact Q3]|]. split; [exact Q4|]. split; [exact Q5|]. split; [apply (more_ciphertext (both E y)); [now right|exact O3]|exact CY].
  - constructor; [|constructor; [|constructor]]; constructor; [|constructor]. intros a b pub. apply disjoint_check. assumption.
  - constructor; [|constructor; [|constructor]]; constructor; [|constructor]. intros a b pub. apply disjoint_check. assumption.
Qed.
End Pairs.
Definition second : pair_of_trips := @trips (demo_env knobs_kid) (setup_ead 3 2) (setup_ead 4 2).
(** Written out. *)
Definition second_nf : pair_of_trips := Eval vm_compute in second.
Lemma second_is : second = second_nf.
Proof. vm_cast_no_check (eq_refl second_nf). Qed.
Lemma second_runs : ok_of (demo_env knobs_kid) (setup_ead 3 2) (setup_ead 4 2) (all_of second toy sk_demo) = true.
Proof. rewrite second_is. vm_cast_no_check (eq_refl true). Qed.
Lemma pairs_case : pairs_ok (demo_env knobs_kid) (demo_trips knobs_kid 2) second 2 3 4 = true.
Proof. rewrite kid_2_is, second_is. vm_cast_no_check (eq_refl true). Qed.
Lemma two_generic : forall E si sr x m ca cb da db, responder_static m = false ->
  premises E x m /\ nothing_forged E x m ca cb -> ok_of E si sr (all_of (@trips E si sr) toy sk_demo) = true ->
  pairs_ok E x (@trips E si sr) m da db = true -> two_sessions E x (@trips E si sr) ca cb da db.
Proof.
  intros E si sr x m ca cb da db M [P N] H K. apply (two_hold _ _ _ m); try assumption.
  apply (premises_hold _ _ _ da db); [apply ok_exchange; exact H|]. unfold pairs_ok in K. do 10 (apply andb_true_iff in K as [K _]). exact K.
Qed.
Lemma two_demo : two_sessions (demo_env knobs_kid) (demo_trips knobs_kid 2) second 1 2 3 4.
Proof.
  pose proof (attack_case _ _ demo_ok_2 attack_2) as A. pose proof second_runs as R. pose proof pairs_case as P. revert A R P.
  unfold second. generalize (demo_env knobs_kid) as E. intros E. generalize (demo_trips knobs_kid 2) as x. intros x.
  generalize (setup_ead 3 2) as si. generalize (setup_ead 4 2) as sr. intros sr si A R P.
  exact (two_generic E si sr x 2 1 2 3 4 eq_refl A R P).
Qed.
