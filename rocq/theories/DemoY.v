(** Premises of the theorems on single calls, checked for the demonstration parties, and the
    runs behind the refutations.  No code of /repo is modelled here. *)
From Verif Require Import Monad Api Common Msg1 Msg2 Msg3 Msg4 Exporter Helpers History Spec Rfc Uses
  Conform Wire Received Facts Sessions Demo DemoX.

Definition octetsb (t : list event) : bool :=
  forallb (fun e => match e with EvExpand _ _ _ _ o => wf_bytesb o | EvDecrypt _ _ _ _ _ x => wf_bytesb x | _ => true end) t.
Lemma wf_check : forall b, wf_bytesb b = true -> wf_bytes b.
Proof.
  intros b H. apply Forall_forall. intros x I. unfold wf_bytesb in H. rewrite forallb_forall in H. apply H in I. unfold is_byteb in I. unfold is_byte. lia.
Qed.
Lemma octets_check : forall t, octetsb t = true -> octets t.
Proof.
  intros t H. unfold octetsb in H. rewrite forallb_forall in H. split; intros; match goal with I : In _ _ |- _ => apply H in I; now apply wf_check in I end.
Qed.
Definition labelsb (t : list event) : bool :=
  forallb (fun e => match e with EvEadCompose _ _ l => forallb (fun k => (- 2 ^ 31 <=? tk_label k) && (tk_label k <? 2 ^ 31)) l | _ => true end) t.
Lemma labels_check : forall t, labelsb t = true -> labels_ok t.
Proof.
  intros t H m l k I J. unfold labelsb in H. rewrite forallb_forall in H. apply H in I. rewrite forallb_forall in I. apply I in J. lia.
Qed.
Definition emptyb (c : ctx) : bool := match c_tokens c with [] => true | _ => false end.
Lemma empty_check : forall c, emptyb c = true -> c_tokens c = [].
Proof. intros c H. unfold emptyb in H. now destruct (c_tokens c). Qed.
(** Key identifiers -24..23 travel. *)
Definition kidb (t : list event) : bool :=
  forallb (fun e => match e with
                    | EvFetch _ (CR _ _ (CKid _ false en v _)) => (en =? ENC_INT) && (-24 <=? v) && (v <=? 23)
                    | EvFetch _ _ => false | _ => true end) t.
Lemma kid_check : forall t, kidb t = true -> forall cr, In (EvFetch OK cr) t -> exists i, travels cr i /\ raw_kid cr = false.
Proof.
  intros t H cr I. unfold kidb in H. rewrite forallb_forall in H. apply H in I. destruct cr as [p l [cred [] en v kb| | | |]]; try discriminate.
  repeat (apply andb_true_iff in I as [I ?]). apply Z.eqb_eq in I. subst. exists (Num v).
  split; [|reflexivity]. constructor. lia.
Qed.

(** ** Single calls *)
Definition run4 (E : env) (x : pair_of_trips) : (Z * bytes) * (ctx * list event) := @run_m (Z * bytes) (@message_4_compose E true 400) (s3 (pt_r x)) (1, []).
Definition run4p (E : env) (x : pair_of_trips) : Z * (ctx * list event) := @run_m Z (@message_4_process E true (snd (fst (run4 E x)))) (s3 (pt_i x)) 1.
Definition demo_calls (E : env) (x : pair_of_trips) : Prop :=
  let a := pt_i x in let b := pt_r x in
  exchange E E toy sk_demo sk_demo a b (pt_m1 x) (pt_m2 x) (pt_m3 x) /\
  sizes_ok (the_suite (s1 a)) /\ sizes_ok (the_suite (s2 a)) /\ sizes_ok (the_suite (s3 a)) /\
  sizes_ok (the_suite (s1 b)) /\ sizes_ok (the_suite (s2 b)) /\ sizes_ok (the_suite (s3 b)) /\
  c_tokens (s1 a) = [] /\ c_tokens (s2 b) = [] /\ octets (ev2 a) /\ octets (ev3 b) /\
  exists m4 b4 e a4 f,
    @message_4_compose E true 400 (Wd (s3 b) []) = Ret (OK, m4) (Wd b4 (e ++ [])) /\
    @message_4_process E true m4 (Wd (s3 a) []) = Ret OK (Wd a4 (f ++ [])) /\
    obeys toy sk_demo e /\ obeys toy sk_demo f /\ is_message m4 /\ labels_ok e /\ sent MSG_4 e <> [].
Definition calls_ok (E : env) (x : pair_of_trips) : bool :=
  let a := pt_i x in let b := pt_r x in
  sizesb (the_suite (s1 a)) && sizesb (the_suite (s2 a)) && sizesb (the_suite (s3 a)) &&
  sizesb (the_suite (s1 b)) && sizesb (the_suite (s2 b)) && sizesb (the_suite (s3 b)) &&
  emptyb (s1 a) && emptyb (s2 b) && octetsb (ev2 a) && octetsb (ev3 b) &&
  (fst (fst (run4 E x)) =? OK) && (fst (run4p E x) =? OK) &&
  evs_ok toy sk_demo (snd (snd (run4 E x))) && evs_ok toy sk_demo (snd (snd (run4p E x))) &&
  messageb (snd (fst (run4 E x))) && labelsb (snd (snd (run4 E x))) &&
  match sent MSG_4 (snd (snd (run4 E x))) with [] => false | _ => true end.
Lemma calls_check : forall E x, exchange E E toy sk_demo sk_demo (pt_i x) (pt_r x) (pt_m1 x) (pt_m2 x) (pt_m3 x) -> calls_ok E x = true -> demo_calls E x.
Proof.
  intros E x X H. unfold calls_ok in H. cbv zeta in H.
  destruct (run4 E x) as [[r4 m4] [b4 e]] eqn:R4. destruct (run4p E x) as [q4 [a4 f]] eqn:Q4. cbn [fst snd] in H.
  repeat match goal with H : _ && _ = true |- _ => apply andb_true_iff in H as [? ?] end.
  unfold demo_calls. cbv zeta. 
  split; [exact X|]. clear X. do 6 (split; [apply sizes_check; assumption|]). do 2 (split; [apply empty_check; assumption|]). do 2 (split; [apply octets_check; assumption|]).
  repeat match goal with H : (_ =? OK) = true |- _ => apply Z.eqb_eq in H; subst end.
  unfold run4p in Q4. rewrite R4 in Q4. unfold run4 in R4. apply run_m_inv in R4, Q4; try discriminate.
  exists m4, b4, e, a4, f. split; [exact R4|]. split; [exact Q4|]. do 2 (split; [apply obeys_check; assumption|]). split; [apply message_check; assumption|].
  split; [apply labels_check; assumption|]. intros N. rewrite N in *. discriminate.
Qed.

(** ** EAD and identifiers *)
Definition ead_eqb (x y : ead) : bool :=
  (fst x =? fst y) && match snd x, snd y with Some a, Some b => beqb a b | None, None => true | _, _ => false end.
Definition oneb (l : list ead) (x : ead) : bool := match l with [y] => ead_eqb x y | _ => false end.
Lemma one_check : forall l x, oneb l x = true -> l = [x].
Proof.
  intros [|y []] x H; try discriminate H. cbn [oneb] in H. destruct x as [i u], y as [j v]. unfold ead_eqb in H. cbn [fst snd] in H.
  apply andb_true_iff in H as [A B]. apply Z.eqb_eq in A. subst. destruct u, v; try discriminate; [|reflexivity]. apply beqb_eq in B. now subst.
Qed.
Definition someb (o : option Z) : bool := match o with Some _ => true | None => false end.
Definition eads_ok (E : env) (x : pair_of_trips) : bool :=
  labelsb (ev2 (pt_r x)) && labelsb (ev3 (pt_i x)) && kidb (ev2 (pt_r x)) && kidb (ev3 (pt_i x)) &&
  someb (f_process (c_ead (s0 (pt_i x)))) && someb (f_process (c_ead (s0 (pt_r x)))) &&
  negb (@cf_max_ead E =? 0) && oneb (sent MSG_2 (ev2 (pt_r x))) (7, Some [1; 2; 1]) && oneb (sent MSG_3 (ev3 (pt_i x))) (6, Some [1; 2; 2]).
Lemma demo_eads : forall E x, eads_ok E x = true ->
  labels_ok (ev2 (pt_r x)) /\ labels_ok (ev3 (pt_i x)) /\
  (forall cr, In (EvFetch OK cr) (ev2 (pt_r x)) -> exists i, travels cr i) /\
  (forall cr, In (EvFetch OK cr) (ev3 (pt_i x)) -> exists i, travels cr i) /\
  f_process (c_ead (s0 (pt_i x))) <> None /\ f_process (c_ead (s0 (pt_r x))) <> None /\
  @cf_max_ead E <> 0 /\
  sent MSG_2 (ev2 (pt_r x)) = [(7, Some [1; 2; 1])] /\ sent MSG_3 (ev3 (pt_i x)) = [(6, Some [1; 2; 2])].
Proof.
  intros E x H. unfold eads_ok in H. repeat (apply andb_true_iff in H as [H ?]).
  assert (S : forall o, someb o = true -> o <> None) by (intros [] ?; discriminate).
  do 2 (split; [now apply labels_check|]).
  do 2 (split; [intros cr I; match goal with K : kidb _ = true |- _ => destruct (kid_check _ K _ I) as (i & A & _); now exists i end|]).
  do 2 (split; [now apply S|]). split; [lia|]. split; now apply one_check.
Qed.
Definition same_idb (a b : creds) : bool :=
  match cr_body a, cr_body b with
  | CKid _ _ e v _, CKid _ _ e' v' _ => (e =? ENC_INT) && (e' =? ENC_INT) && (v =? v')
  | _, _ => false
  end.
Definition ids_ok (x : pair_of_trips) : bool :=
  kidb (ev2 (pt_r x)) && existsb (fun e => match e with EvFetch r _ => r =? OK | _ => false end) (ev2 (pt_r x)) &&
  existsb (fun e => match e with EvCredVerify cr0 r cr' _ => (r =? OK) && same_idb cr0 cr' | _ => false end) (ev2 (pt_i x)).
Lemma demo_ids : forall x, ids_ok x = true -> exists cr i cr0 cr' pub, In (EvFetch OK cr) (ev2 (pt_r x)) /\ travels cr i /\
  In (EvCredVerify cr0 OK cr' pub) (ev2 (pt_i x)) /\ raw_kid cr = false /\ same_identity cr0 cr'.
Proof.
  intros x H. unfold ids_ok in H. repeat (apply andb_true_iff in H as [H ?]). rewrite existsb_exists in *.
  destruct H1 as (e1 & I1 & A1). destruct H0 as (e2 & I2 & A2). destruct e1; try discriminate. destruct e2; try discriminate.
  apply Z.eqb_eq in A1. subst. apply andb_true_iff in A2 as [A2 A3]. apply Z.eqb_eq in A2. subst.
  destruct (kid_check _ H _ I1) as (i & T & R). do 5 eexists. split; [exact I1|]. split; [exact T|]. split; [exact I2|]. split; [exact R|].
  unfold same_idb, same_identity in *. destruct (cr_body _); try discriminate. destruct (cr_body _); try discriminate.
  repeat (apply andb_true_iff in A3 as [A3 ?]). apply Z.eqb_eq in A3. subst. split; [symmetry; now apply Z.eqb_eq|]. cbn. now apply Z.eqb_eq.
Qed.

(** ** Refutations *)
(** An EAD item without a value in message 1. *)
Definition knobs_nov : knobs := Kn None (fun _ _ _ => true) kid_creds (fun m u => [TK 7 (ZS 0 None)]).
Definition nov_a : ctx := Eval vm_compute in @start_of (demo_env knobs_nov) (setup_ead 1 0).
Definition nov_b : ctx := Eval vm_compute in @start_of (demo_env knobs_nov) (setup_ead 2 0).
Definition nov_1 := Eval vm_compute in run_m (@message_1_compose (demo_env knobs_nov) true 400) nov_a (1, []).
Definition nov_2 := Eval vm_compute in run_m (@message_1_process (demo_env knobs_nov) true (snd (fst nov_1))) nov_b 1.
Lemma nov_config : @configured (demo_env knobs_nov) nov_a /\ @configured (demo_env knobs_nov) nov_b.
Proof. split; [apply (@start_configured (demo_env knobs_nov) (setup_ead 1 0))|apply (@start_configured (demo_env knobs_nov) (setup_ead 2 0))]; vm_compute; reflexivity. Qed.
Lemma valueless_1 : exists E a0 a1 e b0 b1 f m1,
  @configured E a0 /\ @configured E b0 /\
  @message_1_compose E true 400 (Wd a0 []) = Ret (OK, m1) (Wd a1 (e ++ [])) /\
  @message_1_process E true m1 (Wd b0 []) = Ret OK (Wd b1 (f ++ [])) /\
  sent MSG_1 e = [(7, None)] /\ received MSG_1 f = [(7, Some [])].
Proof.
  exists (demo_env knobs_nov), nov_a, (fst (snd nov_1)), (snd (snd nov_1)), nov_b, (fst (snd nov_2)), (snd (snd nov_2)), (snd (fst nov_1)).
  split; [exact (proj1 nov_config)|]. split; [exact (proj2 nov_config)|]. split; [vm_compute; reflexivity|]. split; [vm_compute; reflexivity|]. split; vm_compute; reflexivity.
Qed.
Lemma last_snoc : forall (l : bytes) x, last (l ++ [x]) 0 = x.
Proof. induction l as [|y l IH]; intros x; [reflexivity|]. cbn [app last]. rewrite <- (IH x) at 2. destruct (l ++ [x]) eqn:N; [now destruct l|reflexivity]. Qed.
Lemma valueless_bytes : exists E c m c' e,
  @configured E c /\ @message_1_compose E true 400 (Wd c []) = Ret (OK, m) (Wd c' (e ++ [])) /\
  forall method suites gx ci, m <> cbor_seq (message_1_items method suites gx ci (sent MSG_1 e)).
Proof.
  exists (demo_env knobs_nov), nov_a, (snd (fst nov_1)), (fst (snd nov_1)), (snd (snd nov_1)).
  split; [exact (proj1 nov_config)|]. split; [vm_compute; reflexivity|]. intros method suites gx ci N.
  assert (S : sent MSG_1 (snd (snd nov_1)) = [(7, None)]) by (vm_compute; reflexivity). rewrite S in N.
  assert (L : last (snd (fst nov_1)) 0 = 64) by (vm_compute; reflexivity).
  assert (Q : exists l, cbor_seq (message_1_items method suites gx ci [(7, None)]) = l ++ [7]).
  { unfold message_1_items, cbor_seq. cbn [flat_map ead_items fst snd app]. 
    exists (cbor (Num method) ++ cbor (suites_item suites) ++ cbor (Bstr gx) ++ cbor (cid_item ci)). rewrite <- !app_assoc. reflexivity. }
  destruct Q as (l & Q). rewrite N, Q, last_snoc in L. discriminate.
Qed.
(** The key identifier 100. *)
Definition knobs_100 : knobs :=
  Kn None (fun _ _ _ => true) (fun p => CR (KT_SIGNATURE :: lt_of p) COSE_KID (CKid (cert_of 100) false ENC_INT 100 [])) (fun m u => []).
Definition t100 : pair_of_trips := Eval vm_compute in demo_trips knobs_100 0.
Lemma kid_100 : exists E c m c' e d r d' f cr cr0 r' cr' pub,
  @message_2_compose E true 400 (Wd c []) = Ret (OK, m) (Wd c' (e ++ [])) /\
  @message_2_process E true m (Wd d []) = Ret r (Wd d' (f ++ [])) /\
  In (EvFetch OK cr) e /\ In (EvCredVerify cr0 r' cr' pub) f /\
  cr_body cr = CKid (cert_of 100) false ENC_INT 100 [] /\ ~ same_identity cr cr0.
Proof.
  exists (demo_env knobs_100), (s1 (pt_r t100)), (pt_m2 t100), (s2 (pt_r t100)), (ev2 (pt_r t100)), (s1 (pt_i t100)).
  exists (-138), (s2 (pt_i t100)), (ev2 (pt_i t100)), (k_creds knobs_100 2), (CR [] COSE_KID (CKid [] false ENC_INT 88 [])), OK,
    (CR [] COSE_KID (CKid (cert_of 88) false ENC_INT 88 [])), (cert_of 88).
  split; [vm_compute; reflexivity|]. split; [vm_compute; reflexivity|]. split; [vm_compute; tauto|]. split; [vm_compute; tauto|].
  split; [reflexivity|]. intros [_ N]. discriminate.
Qed.
