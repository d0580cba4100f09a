(** Properties of keys under attack (C69): what the two ends hold once messages 3 and 4 were
    accepted, although the messages may come from anyone.  See Active.v and Keys.v. *)
From Verif Require Import Monad Api Common Msg1 Msg2 Msg3 Msg4 Rfc Uses Wire Conform Received Sessions
  Active Keys KeysProofs Demo DemoX DemoY DemoA DemoB PropActive.

(** ** C69 *)
(** Key confirmation.  An initiator that accepts a message 4 shares TH_4 and PRK_4e3m with an
    honest responder of the same session: every later export of the two agrees, and so do the
    OSCORE contexts. *)
Theorem C69_initiator : forall (E : env) a m1 m2 m3 ev4 m4 (peer : session -> Prop),
  opened a m1 m2 -> sends_3 a m3 -> contract (ev3 a) ->
  accepts_4 a ev4 m4 -> contract ev4 -> no_forged_ciphertext peer ev4 ->
  (forall q, peer q -> no_collision (ev1 a ++ ev2 a ++ ev3 a) q /\ no_key_collision ev4 (se_ev4 q)) ->
  exists q, peer q /\ closes q /\ se_m1 q = m1 /\ same_session a (se q) /\ same_secret a (se q) /\
    (same_table a (se q) -> forall p, exports_agree E (se_env q) p (s3 a) (s3 (se q))).
Proof. exact confirmed_keys. Qed.
Print Assumptions C69_initiator.
Example keys_case : forall m, In m [1; 2] ->
  forall q, both (demo_env knobs_kid) (demo_trips knobs_kid m) q ->
  no_key_collision (se_ev4 (initiator_session (demo_env knobs_kid) (demo_trips knobs_kid m))) (se_ev4 q) /\
  no_key_collision (ev3 (pt_r (demo_trips knobs_kid m))) (ev3 (se q)).
Proof. intros m [<-|[<-|[]]]; apply keys_apart; [exact keys_1|exact keys_2]. Qed.
Example C69_initiator_case : forall m, In m [1; 2] ->
  let E := demo_env knobs_kid in let x := demo_trips knobs_kid m in
  let a := pt_i x in let ev4 := se_ev4 (initiator_session E x) in
  @opened E a (pt_m1 x) (pt_m2 x) /\ @sends_3 E a (pt_m3 x) /\ contract (ev3 a) /\
  @accepts_4 E a ev4 (se_m4 (responder_session E x)) /\ contract ev4 /\
  no_forged_ciphertext (both E x) ev4 /\
  (forall q, both E x q -> no_collision (ev1 a ++ ev2 a ++ ev3 a) q /\ no_key_collision ev4 (se_ev4 q)).
Proof.
  intros m M E x a ev4. destruct (cases m M) as [P N]. destruct P as (P1 & P2 & P3 & P4 & P5 & _).
  destruct N as (_ & _ & _ & _ & _ & N6 & N7). do 6 (split; [assumption|]).
  intros q Q. split; [exact (proj1 (proj2 (N7 q Q)))|exact (proj1 (keys_case m M q Q))].
Qed.

(** A responder that accepts a message 3 shares TH_3 and PRK_3e2m with an honest initiator of the
    same session.  If moreover the primitives are correct and the accepted credential is the one
    the initiator used, the two share TH_4, PRK_4e3m and every later export. *)
Theorem C69_responder : forall (E : env) b m1 m2 m3 (peer : session -> Prop),
  answered b m1 m2 -> accepts_3 b m3 -> contract (ev3 b) -> no_forged_ciphertext peer (ev3 b) ->
  (forall q, peer q -> no_collision (ev1 b ++ ev2 b) q /\ no_key_collision (ev3 b) (ev3 (se q))) ->
  exists q, peer q /\ confirms q /\ se_m1 q = m1 /\ same_session (se q) b /\
    th_of (s2 (se q)) = th_of (s2 b) /\ prk_of (s2 (se q)) = prk_of (s2 b) /\
    (forall p sk_i sk_r, correct p -> same_table (se q) b ->
       obeys p sk_i (ev3 (se q)) -> obeys p sk_r (ev2 b) -> obeys p sk_r (ev3 b) -> apart (ev3 (se q)) ->
       honest_credential p sk_i (initiator_static (c_chosen_method (s1 b))) (ev3 (se q)) (ev3 b) ->
       same_secret (se q) b /\ exports_agree (se_env q) E p (s3 (se q)) (s3 b)).
Proof. exact sealed_keys. Qed.
Print Assumptions C69_responder.
Example C69_responder_case : forall m, In m [1; 2] ->
  let E := demo_env knobs_kid in let x := demo_trips knobs_kid m in let a := pt_i x in let b := pt_r x in
  @answered E b (pt_m1 x) (pt_m2 x) /\ @accepts_3 E b (pt_m3 x) /\ contract (ev3 b) /\
  no_forged_ciphertext (both E x) (ev3 b) /\
  (forall q, both E x q -> no_collision (ev1 b ++ ev2 b) q /\ no_key_collision (ev3 b) (ev3 (se q))) /\
  correct toy /\ same_table a b /\ obeys toy sk_demo (ev3 a) /\ obeys toy sk_demo (ev2 b) /\
  obeys toy sk_demo (ev3 b) /\ apart (ev3 a) /\
  honest_credential toy sk_demo (initiator_static (c_chosen_method (s1 b))) (ev3 a) (ev3 b).
Proof.
  intros m M E x a b. destruct (cases m M) as [P N]. destruct P as (P1 & P2 & P3 & P4 & P5 & P6 & P7 & P8 & _ & _ & P11 & P12 & _).
  destruct N as (_ & _ & _ & _ & N5 & _ & N7). do 4 (split; [assumption|]). split.
  { intros q Q. split; [exact (proj2 (proj2 (N7 q Q)))|exact (proj2 (keys_case m M q Q))]. }
  assert (D : demo_exchange_of knobs_kid m).
  { apply demo_exchange. destruct M as [<-|[<-|[]]]; [exact demo_ok_1|exact demo_ok_2]. }
  destruct D as (_ & _ & _ & _ & _ & _ & _ & C & (_ & _ & OI) & (_ & O2 & O3) & A & _ & _ & H & _ & _ & _ & T).
  split; [exact C|]. split; [exact T|]. do 4 (split; [assumption|]).
  change (c_chosen_method (s1 b)) with (c_chosen_method (s1 (pt_r (demo_trips knobs_kid m)))). rewrite P12, <- P11. exact H.
Qed.
