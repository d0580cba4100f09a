(** Premises of the theorems on sessions under attack, checked for the demonstration parties.
    No code of /repo is modelled here. *)
From Verif Require Import Monad Api Common Msg1 Msg2 Msg3 Msg4 Exporter Helpers History Spec Rfc Uses
  Conform Wire Received Facts Sessions Active Demo DemoX DemoY.
From Verif Require ActiveProofs.

(** ** Checkers *)
Definition shortb (b : bytes) : bool := zlen b <? 2 ^ 64.
Definition contractb (t : list event) : bool :=
  octetsb t && forallb (fun e => match e with
    | EvHash x n r y => shortb x && (negb (r =? OK) || (zlen y =? n))
    | EvSign _ x _ _ => shortb x
    | EvVerify _ x _ _ => shortb x
    | EvExpand _ i n r o => shortb i && (negb (r =? OK) || (zlen o =? n))
    | EvEncrypt _ _ a _ _ _ => shortb a
    | EvDecrypt _ _ a _ _ _ => shortb a
    | _ => true end) t.
Lemma short_check : forall b, shortb b = true -> zlen b < 2 ^ 64.
Proof. intros b H. now apply Z.ltb_lt. Qed.
Lemma contract_check : forall t, contractb t = true -> contract t.
Proof.
  intros t H. apply andb_true_iff in H as [O H]. rewrite forallb_forall in H. split; [split|split; [now apply octets_check|]].
  - intros x n y I. apply H in I. apply andb_true_iff in I as [_ I]. now apply Z.eqb_eq.
  - intros kid i n y I. apply H in I. apply andb_true_iff in I as [_ I]. now apply Z.eqb_eq.
  - repeat split; intros; match goal with I : In _ _ |- _ => apply H in I | I : hashed _ _ _ _ |- _ => apply H in I end;
      repeat match goal with I : _ && _ = true |- _ => apply andb_true_iff in I as [I _] end; now apply short_check.
Qed.
(** Events with the key behind their handle. *)
Definition handle_of (e : event) : option bytes :=
  match e with
  | EvVerify k _ _ _ => Some k | EvExpand k _ _ _ _ => Some k
  | EvEncrypt k _ _ _ _ _ => Some k | EvDecrypt k _ _ _ _ _ => Some k | _ => None end.
Fixpoint keyed (t : list event) : list (event * (Z * bytes)) :=
  match t with
  | [] => []
  | e :: t' => match handle_of e with
               | Some kid => match key_of kid t' with Some k => [(e, k)] | None => [] end
               | None => [] end ++ keyed t'
  end.
Lemma keyed_of : forall t e kid kt key, handle_of e = Some kid -> with_key t e kid kt key -> In (e, (kt, key)) (keyed t).
Proof.
  intros t e kid kt key H (t1 & t2 & -> & K). induction t1 as [|x t1 IH]; cbn [app keyed].
  - rewrite H, K. now left.
  - apply in_or_app. now right.
Qed.
Lemma keyed_to : forall t e kid kt key, handle_of e = Some kid -> In (e, (kt, key)) (keyed t) -> with_key t e kid kt key.
Proof.
  intros t e kid kt key H. induction t as [|x t IH]; [intros []|]. cbn [keyed]. intros I. apply in_app_or in I as [I|I].
  - destruct (handle_of x) as [kid'|] eqn:X; [|destruct I]. destruct (key_of kid' t) as [k|] eqn:K; [|destruct I]. destruct I as [I|[]].
    injection I as -> ->. rewrite H in X. injection X as ->. exists [], t. now split.
  - destruct (IH I) as (t1 & t2 & -> & K). exists (x :: t1), t2. now split.
Qed.
(** Hash events of [u] that agree in the output with one of [t] agree in the input. *)
Definition no_collisionb (t u : list event) : bool :=
  forallb (fun e => match e with
    | EvHash x _ _ y => forallb (fun e' => match e' with EvHash x' _ _ y' => negb (beqb y y') || beqb x x' | _ => true end) u
    | _ => true end) t.
Lemma collision_check : forall t q, no_collisionb t (ev1 (se q) ++ ev2 (se q) ++ ev3 (se q)) = true -> no_collision t q.
Proof.
  intros t q H x n x' n' y A B. unfold no_collisionb in H. rewrite forallb_forall in H. apply H in A. rewrite forallb_forall in A. apply A in B.
  rewrite beqb_refl in B. now apply beqb_eq.
Qed.
Definition signsb (t u : list event) (pub : bytes) : bool :=
  forallb (fun y => match y with
    | (EvVerify _ x _ _, (_, k)) => beqb k pub && existsb (fun e => match e with EvSign _ x' r _ => (r =? OK) && beqb x x' | _ => false end) u
    | _ => true end) (keyed t).
Lemma signs_check : forall t u pub, signsb t u pub = true -> forall k x s, verified t k x s -> k = pub /\ exists kid s', signed u kid x s'.
Proof.
  intros t u pub H k x s (kid & V). apply keyed_of in V; [|reflexivity]. unfold signsb in H. rewrite forallb_forall in H. apply H in V. apply andb_true_iff in V as [V W].
  split; [now apply beqb_eq|]. apply existsb_exists in W as (e & I & W). destruct e; try discriminate W. apply andb_true_iff in W as [W1 W2].
  apply Z.eqb_eq in W1. apply beqb_eq in W2. subst. do 2 eexists. exact I.
Qed.
(** MAC computations carry the label in their first byte. *)
Definition macsb (label : Z) (t u : list event) (pub : bytes) : bool :=
  forallb (fun x => beqb (snd x) pub) (vouched t) &&
  forallb (fun y => match y with
    | (EvExpand _ i _ _ _, _) => negb (match i with b :: _ => b =? label | [] => false end) ||
        existsb (fun z => match z with
          | (EvExpand _ i' n r o, (kt, _)) => (r =? OK) && (kt =? KT_EXPAND) && (zlen o <=? n) && beqb i i'
          | _ => false end) (keyed u)
    | _ => true end) (keyed t).
Lemma macs_check : forall label t u pub, 0 <= label < 24 -> macsb label t u pub = true ->
  forall cr0 cr k prk context len n o, In (EvCredVerify cr0 OK cr k) t -> expanded t prk (info label context len) n o ->
  k = pub /\ exists prk' n' o', expanded u prk' (info label context len) n' o'.
Proof.
  intros label t u pub L H cr0 cr k prk context len n o V (kid & o' & X & _). apply andb_true_iff in H as [H1 H2]. split.
  - rewrite forallb_forall in H1. apply in_vouched in V. apply H1 in V. now apply beqb_eq.
  - apply keyed_of in X; [|reflexivity]. rewrite forallb_forall in H2. apply H2 in X. apply orb_true_iff in X as [X|X].
    + exfalso. revert X. unfold info, cbor_seq. cbn [flat_map cbor]. replace (label <? 0) with false by lia. unfold head, add_info, arg_width. replace (label <? 24) with true by lia.
      cbn [app]. replace (2 ^ 5 * 0 + label) with label by lia. rewrite Z.eqb_refl. discriminate.
    + apply existsb_exists in X as ([e [kt key]] & I & X). destruct e; try discriminate X. repeat (apply andb_true_iff in X as [X ?]).
      apply Z.eqb_eq in X. match goal with Q : (kt =? _) = true |- _ => apply Z.eqb_eq in Q end. match goal with Q : beqb _ _ = true |- _ => apply beqb_eq in Q end. subst.
      eexists. eexists. eexists. eexists. eexists. split; [apply keyed_to; [|exact I]; reflexivity|]. split; [lia|reflexivity].
Qed.
Definition sealsb (t u : list event) : bool :=
  forallb (fun y => match y with
    | (EvDecrypt _ n a c _ x, (_, k)) => existsb (fun z => match z with
        | (EvEncrypt _ n' a' x' r c', (kt, k')) => (r =? OK) && (kt =? KT_ENCRYPT) && beqb n n' && beqb a a' && beqb x x' && beqb c c' && beqb k k'
        | _ => false end) (keyed u)
    | _ => true end) (keyed t).
Lemma seals_check : forall t u, sealsb t u = true -> forall k n a c x, decrypted t k n a c x -> encrypted u k n a x c.
Proof.
  intros t u H k n a c x (kid & D). apply keyed_of in D; [|reflexivity]. unfold sealsb in H. rewrite forallb_forall in H. apply H in D.
  apply existsb_exists in D as ([e [kt key]] & I & X). destruct e; try discriminate X. repeat (apply andb_true_iff in X as [X ?]).
  apply Z.eqb_eq in X. repeat match goal with Q : (_ =? _) = true |- _ => apply Z.eqb_eq in Q end. repeat match goal with Q : beqb _ _ = true |- _ => apply beqb_eq in Q end. subst.
  eexists. apply keyed_to; [|exact I]. reflexivity.
Qed.

(** ** The demonstration parties *)
Section Parties.
Variables (E : env) (x : pair_of_trips) (m ca cb : Z).
Definition initiator_session : session :=
  Session E (pt_i x) (snd (snd (run4p E x))) (pt_m1 x) (pt_m2 x) (pt_m3 x) (snd (fst (run4 E x))).
Definition responder_session : session :=
  Session E (pt_r x) (snd (snd (run4 E x))) (pt_m1 x) (pt_m2 x) (pt_m3 x) (snd (fst (run4 E x))).
(** The two sessions, and whose keys they use. *)
Definition both (q : session) : Prop := q = initiator_session \/ q = responder_session.
Definition holder (pub : bytes) (q : session) : Prop :=
  (pub = cert_of ca /\ q = initiator_session) \/ (pub = cert_of cb /\ q = responder_session).
Definition plainb (t : list event) : bool :=
  forallb (fun e => match e with
    | EvFetch _ (CR _ _ (CKid _ _ en v _)) => (en =? ENC_INT) && (-24 <=? v) && (v <=? 23)
    | EvCredVerify _ _ (CR _ _ (CKid _ _ en v _)) _ => (en =? ENC_INT) && (-24 <=? v) && (v <=? 23)
    | EvFetch _ _ | EvCredVerify _ _ _ _ => false | _ => true end) t.
Definition events_ok : bool :=
  let a := pt_i x in let b := pt_r x in let r4 := run4 E x in let p4 := run4p E x in
  contractb (ev1 a) && contractb (ev2 a) && contractb (ev3 a) && contractb (snd (snd p4)) &&
  contractb (ev1 b) && contractb (ev2 b) && contractb (ev3 b) && contractb (snd (snd r4)) &&
  (fst (fst r4) =? OK) && (fst p4 =? OK) &&
  no_collisionb (ev1 a ++ ev2 a ++ ev3 a) (ev1 a ++ ev2 a ++ ev3 a) &&
  no_collisionb (ev1 a ++ ev2 a ++ ev3 a) (ev1 b ++ ev2 b ++ ev3 b) &&
  no_collisionb (ev1 b ++ ev2 b) (ev1 a ++ ev2 a ++ ev3 a) &&
  no_collisionb (ev1 b ++ ev2 b) (ev1 b ++ ev2 b ++ ev3 b) &&
  sealsb (ev3 b) (ev3 a) && sealsb (snd (snd p4)) (snd (snd r4)) &&
  (if responder_static m then macsb MAC_2 (ev2 a) (ev2 b) (cert_of cb) else signsb (ev2 a) (ev2 b) (cert_of cb)) &&
  (if initiator_static m then macsb MAC_3 (ev3 b) (ev3 a) (cert_of ca) else signsb (ev3 b) (ev3 a) (cert_of ca)) &&
  plainb (ev2 a) && plainb (ev2 b) && plainb (ev3 a) && plainb (ev3 b) &&
  (my_method (s0 a) =? m) && (c_chosen_method (s1 b) =? m).
Lemma plain_check : forall t, plainb t = true -> plain_ids t.
Proof.
  intros t H. unfold plainb in H. rewrite forallb_forall in H.
  assert (W : forall p l cred b en v kb, (en =? ENC_INT) && (-24 <=? v) && (v <=? 23) = true -> exists i, written i (id_bytes (CR p l (CKid cred b en v kb)))).
  { intros p l cred b en v kb Q. repeat (apply andb_true_iff in Q as [Q ?]). eexists. unfold id_bytes. cbn [cr_body]. rewrite Q. apply ActiveProofs.map1_written; apply ActiveProofs.num_written; lia. }
  split.
  - intros cr I. apply H in I. destruct cr as [p l [cred b en v kb| | | |]]; try discriminate I. now apply W.
  - intros cr0 cr pub I. apply H in I. destruct cr as [p l [cred b en v kb| | | |]]; try discriminate I. now apply W.
Qed.
Definition premises : Prop :=
  let a := pt_i x in let b := pt_r x in
  @opened E a (pt_m1 x) (pt_m2 x) /\ @sends_3 E a (pt_m3 x) /\ contract (ev3 a) /\
  @accepts_4 E a (se_ev4 initiator_session) (se_m4 responder_session) /\ contract (se_ev4 initiator_session) /\
  @answered E b (pt_m1 x) (pt_m2 x) /\ @accepts_3 E b (pt_m3 x) /\ contract (ev3 b) /\
  @sends_4 E b (se_ev4 responder_session) (se_m4 responder_session) /\ contract (se_ev4 responder_session) /\
  my_method (s0 a) = m /\ c_chosen_method (s1 b) = m /\
  plain_ids (ev2 a) /\ plain_ids (ev2 b) /\ plain_ids (ev3 a) /\ plain_ids (ev3 b).
Definition nothing_forged : Prop :=
  let a := pt_i x in let b := pt_r x in
  (responder_static m = false -> no_forged_signature holder (ev2 a)) /\
  (responder_static m = true -> no_forged_mac holder MAC_2 (ev2 a)) /\
  (initiator_static m = false -> no_forged_signature holder (ev3 b)) /\
  (initiator_static m = true -> no_forged_mac holder MAC_3 (ev3 b)) /\
  no_forged_ciphertext both (ev3 b) /\ no_forged_ciphertext both (se_ev4 initiator_session) /\
  (forall q, both q -> no_collision (ev1 a ++ ev2 a) q /\ no_collision (ev1 a ++ ev2 a ++ ev3 a) q /\ no_collision (ev1 b ++ ev2 b) q).
Lemma low_2 : 0 <= MAC_2 < 24. Proof. unfold MAC_2. lia. Qed.
Lemma low_3 : 0 <= MAC_3 < 24. Proof. unfold MAC_3. lia. Qed.
Lemma part_collision : forall t u q, no_collision (t ++ u) q -> no_collision t q.
Proof. intros t u q H y n y' n' z A B. apply (H _ n _ n' z); [|exact B]. unfold hashed in *. apply in_or_app. now left. Qed.
Lemma premises_hold : exchange E E toy sk_demo sk_demo (pt_i x) (pt_r x) (pt_m1 x) (pt_m2 x) (pt_m3 x) -> events_ok = true -> premises.
Proof.
  intros X H. destruct X as (X1 & X2 & (X3 & X4 & X5) & (X6 & X7 & X8) & X9 & X10 & X11 & _ & _ & _ & _ & _ & _ & _ & X12 & X13 & X14 & _).
  unfold events_ok in H. cbv zeta in H. do 23 (apply andb_true_iff in H as [H ?]).
  repeat match goal with Q : contractb _ = true |- _ => apply contract_check in Q end. repeat match goal with Q : (_ =? _) = true |- _ => apply Z.eqb_eq in Q end.
  repeat match goal with Q : plainb _ = true |- _ => apply plain_check in Q end.
  unfold premises. cbv zeta. split.
  { split; [split; [exact X1|exact X12]|]. split; [exact X3|]. split; [exact X4|]. split; [exact X9|]. split; [exact X10|]. split; [exact X14|]. now split. }
  split; [exact X5|]. split; [assumption|]. split.
  { unfold accepts_4. exists true, [], (fst (snd (run4p E x))). cbn [initiator_session responder_session se_ev4 se_m4].
    unfold run4p in *. destruct (run_m (message_4_process true (snd (fst (run4 E x)))) (s3 (pt_i x)) 1) as [r [c e]] eqn:R. cbn [fst snd] in *.
    apply run_m_inv in R; [|now subst r]. now subst r. }
  split; [assumption|]. split.
  { split; [split; [exact X2|exact X13]|]. split; [exact X6|]. split; [exact X7|]. split; [apply X10|]. now split. }
  split; [exact X8|]. split; [assumption|]. split.
  { unfold sends_4. exists true, 400, [], (fst (snd (run4 E x))). cbn [responder_session se_ev4 se_m4].
    unfold run4 in *. destruct (run_m (message_4_compose true 400) (s3 (pt_r x)) (1, [])) as [[r y] [c e]] eqn:R. cbn [fst snd] in *.
    apply run_m_inv in R; [|subst r; discriminate]. now subst r. }
  split; [assumption|]. do 2 (split; [assumption|]). do 3 (split; [assumption|]). assumption.
Qed.
Lemma forged_none : events_ok = true -> premises -> nothing_forged.
Proof.
  intros H (P1 & P2 & P3 & P4 & P5 & P6 & P7 & P8 & P9 & P10 & _). unfold events_ok in H. cbv zeta in H. do 23 (apply andb_true_iff in H as [H ?]).
  assert (CF : confirms initiator_session) by (split; [exact P1|]; split; [exact P2|exact P3]).
  assert (CL : closes responder_session) by (do 4 (split; [assumption|]); assumption).
  assert (CA : answers responder_session) by exact P6.
  unfold nothing_forged. cbv zeta. repeat match goal with |- _ /\ _ => split end.
  - intros ST pub i s V. rewrite ST in *. match goal with Q : signsb (ev2 _) _ _ = true |- _ => destruct (signs_check _ _ _ Q _ _ _ V) as [-> W] end.
    exists responder_session. split; [right; now split|]. left. split; [exact CA|exact W].
  - intros ST cr0 cr pub prk c len n o V W. rewrite ST in *.
    match goal with Q : macsb MAC_2 _ _ _ = true |- _ => destruct (macs_check _ _ _ _ low_2 Q _ _ _ _ _ _ _ _ V W) as [-> U] end.
    exists responder_session. split; [right; now split|]. left. split; [exact CA|exact U].
  - intros ST pub i s V. rewrite ST in *. match goal with Q : signsb (ev3 _) _ _ = true |- _ => destruct (signs_check _ _ _ Q _ _ _ V) as [-> W] end.
    exists initiator_session. split; [left; now split|]. right. split; [exact CF|exact W].
  - intros ST cr0 cr pub prk c len n o V W. rewrite ST in *.
    match goal with Q : macsb MAC_3 _ _ _ = true |- _ => destruct (macs_check _ _ _ _ low_3 Q _ _ _ _ _ _ _ _ V W) as [-> U] end.
    exists initiator_session. split; [left; now split|]. right. split; [exact CF|exact U].
  - intros kk n ad y p V. match goal with Q : sealsb (ev3 _) _ = true |- _ => pose proof (seals_check _ _ Q _ _ _ _ _ V) as W end.
    exists initiator_session. split; [now left|]. left. split; [exact CF|exact W].
  - intros kk n ad y p V. match goal with Q : sealsb (snd _) _ = true |- _ => pose proof (seals_check _ _ Q _ _ _ _ _ V) as W end.
    exists responder_session. split; [now right|]. right. split; [exact CL|exact W].
  - assert (A1 : no_collision (ev1 (pt_i x) ++ ev2 (pt_i x) ++ ev3 (pt_i x)) initiator_session) by (apply collision_check; assumption).
    assert (A2 : no_collision (ev1 (pt_i x) ++ ev2 (pt_i x) ++ ev3 (pt_i x)) responder_session) by (apply collision_check; assumption).
    assert (A3 : no_collision (ev1 (pt_r x) ++ ev2 (pt_r x)) initiator_session) by (apply collision_check; assumption).
    assert (A4 : no_collision (ev1 (pt_r x) ++ ev2 (pt_r x)) responder_session) by (apply collision_check; assumption).
    intros q [-> | ->]; (split; [|split; assumption]); apply (part_collision _ (ev3 (pt_i x))); rewrite <- app_assoc; assumption.
Qed.
End Parties.
Lemma attack_case : forall k m, demo_ok k m = true -> events_ok (demo_env k) (demo_trips k m) m 1 2 = true ->
  premises (demo_env k) (demo_trips k m) m /\ nothing_forged (demo_env k) (demo_trips k m) m 1 2.
Proof. intros k m H1 H2. pose proof (premises_hold _ _ _ _ _ (demo_exchange _ _ H1) H2) as P. split; [exact P|exact (forged_none _ _ _ _ _ H2 P)]. Qed.
Lemma attack_1 : events_ok (demo_env knobs_kid) (demo_trips knobs_kid 1) 1 1 2 = true.
Proof. rewrite kid_1_is. vm_cast_no_check (eq_refl true). Qed.
Lemma attack_2 : events_ok (demo_env knobs_kid) (demo_trips knobs_kid 2) 2 1 2 = true.
Proof. rewrite kid_2_is. vm_cast_no_check (eq_refl true). Qed.
