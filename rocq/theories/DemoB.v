(** Key separation of the demonstration parties.  No code of /repo is modelled here. *)
From Verif Require Import Monad Api Common Msg1 Msg2 Msg3 Msg4 Rfc Uses Conform Wire Received Facts Sessions Active Keys Demo DemoX DemoY DemoA.

(** Expansions of [u] with the info and the output of one of [t] have its key. *)
Definition no_key_collisionb (t u : list event) : bool :=
  forallb (fun y => match y with
    | (EvExpand _ i n r o, (kt, k)) => forallb (fun z => match z with
        | (EvExpand _ i' n' r' o', (kt', k')) => negb (beqb i i') || negb (beqb (arr_read n o) (arr_read n' o')) || beqb k k'
        | _ => true end) (keyed u)
    | _ => true end) (keyed t).
Lemma key_collision_check : forall t u, no_key_collisionb t u = true -> no_key_collision t u.
Proof.
  intros t u H prk prk' i n o (kid & y & A & _ & A') (kid' & y' & B & _ & B').
  apply keyed_of in A; [|reflexivity]. apply keyed_of in B; [|reflexivity].
  unfold no_key_collisionb in H. rewrite forallb_forall in H. apply H in A. rewrite forallb_forall in A. apply A in B.
  rewrite <- A', <- B', !beqb_refl in B. now apply beqb_eq.
Qed.
Section Parties.
Variables (E : env) (x : pair_of_trips).
Definition keys_ok : bool :=
  let e4 := snd (snd (run4p E x)) in let f4 := snd (snd (run4 E x)) in
  no_key_collisionb e4 e4 && no_key_collisionb e4 f4 &&
  no_key_collisionb (ev3 (pt_r x)) (ev3 (pt_i x)) && no_key_collisionb (ev3 (pt_r x)) (ev3 (pt_r x)).
Lemma keys_apart : keys_ok = true -> forall q, both E x q ->
  no_key_collision (se_ev4 (initiator_session E x)) (se_ev4 q) /\ no_key_collision (ev3 (pt_r x)) (ev3 (se q)).
Proof.
  intros H. unfold keys_ok in H. cbv zeta in H. do 3 (apply andb_true_iff in H as [H ?]).
  repeat match goal with Q : no_key_collisionb _ _ = true |- _ => apply key_collision_check in Q end.
  intros q [-> | ->]; split; assumption.
Qed.
End Parties.
Lemma keys_1 : keys_ok (demo_env knobs_kid) (demo_trips knobs_kid 1) = true.
Proof. rewrite kid_1_is. vm_cast_no_check (eq_refl true). Qed.
Lemma keys_2 : keys_ok (demo_env knobs_kid) (demo_trips knobs_kid 2) = true.
Proof. rewrite kid_2_is. vm_cast_no_check (eq_refl true). Qed.
