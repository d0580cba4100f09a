(** Parties over the ready-made suites and the toy libraries of DemoL.v, used only by the examples beside the theorems.

    No code of /repo is modelled here. *)
From Verif Require Import Bytes Facts Values Monad Api Common Msg1 Msg2 Msg3 Msg4 Exporter Helpers History Spec Rfc Uses Conform Sessions Demo DemoX Claims3.
From Verif Require Import Psa SuiteX SuiteW SuitePqc SuiteCalls SuiteSpec SuiteClaims2 DemoL Linked LinkedProofs.
Local Open Scope Z_scope.

Notation LL := (demo_libs (fun _ _ => 0)).
#[local] Existing Instance demo_libs.
Definition unkey (kid : bytes) : Z := nth 0 kid 0 + 256 * nth 1 kid 0 + 65536 * nth 2 kid 0 + 16777216 * nth 3 kid 0.
Lemma unkey_key : forall i, id_ok i -> unkey (key_id i) = i.
Proof.
  intros i H. unfold id_ok in H. unfold unkey, key_id, le4. cbn [nth]. rewrite (Z.mod_small i (2 ^ 32)) by lia.
  change 65536 with (256 * 256). change 16777216 with (256 * 256 * 256). rewrite <- !Z.div_div by lia.
  pose proof (Z.div_mod i 256 ltac:(lia)). pose proof (Z.div_mod (i / 256) 256 ltac:(lia)).
  pose proof (Z.div_mod (i / 256 / 256) 256 ltac:(lia)).
  assert (i / 256 / 256 / 256 < 256) by (rewrite !Z.div_div by lia; apply Z.div_lt_upper_bound; lia).
  assert (0 <= i / 256 / 256 / 256) by (repeat apply Z.div_pos; lia).
  rewrite (Z.mod_small (i / 256 / 256 / 256)) by lia. lia.
Qed.

(** One device: a suite, and the long-term key imported before the session. *)
Record party := Pa { pa_suite : suite; pa_kt : Z; pa_raw : bytes; pa_me : creds; pa_peer : bytes * bytes }.
Section Device.
Variable P : party.
Notation S := (pa_suite P).
Definition served (s : xst) (a : hcall) : hout * xst :=
  match @hrun LL S a s with XRet o s' => (o, s') | XUb _ => (HO 1 None [] [], s) end.
Definition serve (x : list (hcall * hout) * xst) (a : hcall) : list (hcall * hout) * xst :=
  let (o, s') := served (snd x) a in (fst x ++ [(a, o)], s').
Fixpoint past_of (t : list event) : list (hcall * hout) * xst :=
  match t with
  | [] => serve ([], xs0) (HImport (pa_kt P) (pa_raw P) (Some 0))
  | EvImport kt raw _ _ :: t' => serve (past_of t') (HImport kt raw (Some 0))
  | EvDestroy kid _ :: t' => if beqb kid (key_id (unkey kid)) then serve (past_of t') (HDestroy (Some (unkey kid))) else past_of t'
  | _ :: t' => past_of t'
  end.
Definition ask (t : list event) (a : hcall) : hout := fst (served (snd (past_of t)) a).
Definition own_id : Z := 0x40000000.
Definition own_keys (id : Z) : option (Z * bytes) := if id =? own_id then Some (pa_kt P, pa_raw P) else None.
Definition party_env : env :=
  Env 3 7 66 64 3 3 8 10 true None 256
    (fun _ _ _ => true)
    (fun _ t kt raw => let o := ask t (HImport kt raw (Some 0)) in (ho_ret o, kid_after o))
    (fun _ t kid => ho_ret (ask t (HDestroy (Some (unkey kid)))))
    (fun _ t kid n m => let o := ask t (HMkPair (Some (unkey kid)) (Some n) true (Some m) true) in (ho_ret o, ho_1 o, ho_2 o))
    (fun _ t kid p n => let o := ask t (HAgree (Some (unkey kid)) (Some p) (Some n) true) in (ho_ret o, ho_1 o))
    (fun _ t kid i n => let o := ask t (HSign (Some (unkey kid)) (Some i) (Some n) true) in (ho_ret o, ho_1 o))
    (fun _ t kid i sg => ho_ret (ask t (HVerify (Some (unkey kid)) (Some i) (Some sg))))
    (fun _ t kid sa n => let o := ask t (HExtract (Some (unkey kid)) (Some sa) (Some n) true) in (ho_ret o, ho_1 o))
    (fun _ t kid i n => let o := ask t (HExpand (Some (unkey kid)) (Some i) (Some n)) in (ho_ret o, ho_1 o))
    (fun _ t kid iv ad p n => let o := ask t (HEncrypt (Some (unkey kid)) (Some iv) (Some ad) p (Some n) true) in (ho_ret o, ho_1 o))
    (fun _ t kid iv ad c n => let o := ask t (HDecrypt (Some (unkey kid)) (Some iv) (Some ad) (Some c) n true) in (ho_ret o, ho_1 o))
    (fun _ t i n => let o := ask t (HHash (Some i) (Some n) true) in (ho_ret o, ho_1 o))
    (fun _ _ => (OK, pa_me P))
    (fun _ _ cr => match cr_body cr with
                   | CKid _ _ e k _ => (OK, CR [] COSE_KID (CKid (fst (pa_peer P)) false e k []), snd (pa_peer P))
                   | _ => (-1, cr, []) end)
    (fun _ _ _ _ => (OK, []))
    (fun _ _ _ _ => OK).

Hypothesis SH : shipped S.
Hypothesis KE : kept S (pa_kt P) /\ pa_kt P <> KT_MAKE_KEY_PAIR.
Hypothesis ME : cr_priv (pa_me P) = key_id own_id.
Hypothesis IO : fst (served xs0 (HImport (pa_kt P) (pa_raw P) (Some 0))) = HO OK (Some own_id) [] [].

Lemma served_says : forall s a, sane S a -> @hrun LL S a s = XRet (fst (served s a)) (snd (served s a)).
Proof. intros s a H. unfold served. destruct (@no_fault LL S a s SH H) as (o & s' & ->). reflexivity. Qed.
Lemma ask_says : forall t a, sane S a -> @says LL S (snd (past_of t)) a (ask t a).
Proof. intros t a H. exists (snd (served (snd (past_of t)) a)). now apply served_says. Qed.
Lemma serve_reached : forall x a, sane S a -> @reached LL S (fst x) (snd x) -> @reached LL S (fst (serve x a)) (snd (serve x a)).
Proof.
  intros [hh s] a H [l R]. exists (l ++ [a]). unfold serve. cbn [fst snd] in *. pose proof (served_says s a H) as Q.
  destruct (served s a) as [o s']. cbn [fst snd] in *.
  revert hh R. generalize xs0. induction l as [|b l IH]; intros s0 hh R; cbn [hruns app] in *.
  - injection R as <- <-. now rewrite Q.
  - destruct (hrun S b s0) as [o1 s1|]; [|discriminate R]. destruct (hruns S l s1) as [os s2|] eqn:X; [|discriminate R].
    injection R as <- <-. now rewrite (IH _ _ X).
Qed.
Lemma past_reached : forall t, @reached LL S (fst (past_of t)) (snd (past_of t)).
Proof.
  induction t as [|[] t IH]; cbn [past_of]; try exact IH; try (apply serve_reached; [discriminate || exact I|]; try exact IH).
  - exists []. reflexivity.
  - destruct (beqb _ _); [|exact IH]. apply serve_reached; [exact I|exact IH].
Qed.
Lemma serve_fst : forall x a, fst (serve x a) = fst x ++ [(a, fst (served (snd x) a))].
Proof. intros x a. unfold serve. now destruct (served (snd x) a). Qed.
Lemma past_own : forall t, (forall r, ~ In (EvDestroy (key_id own_id) r) t) ->
  exists x, fst (past_of t) = (HImport (pa_kt P) (pa_raw P) (Some 0), HO OK (Some own_id) [] []) :: x /\
  forall o, In (HDestroy (Some own_id), o) x -> ho_ret o = OK -> False.
Proof.
  induction t as [|ev t IH]; intros N.
  - cbn [past_of]. rewrite serve_fst. cbn [fst snd app]. rewrite IO. exists []. split; [reflexivity|intros ? []].
  - destruct (IH (fun r I => N r (or_intror I))) as (x & X & D). clear IH.
    destruct ev; cbn [past_of]; try (exists x; split; [exact X|exact D]).
    + rewrite serve_fst, X; cbn [app]; eexists; split; [reflexivity|].
      intros o I. apply in_app_or in I. destruct I as [I|[I|[]]]; [now apply D|discriminate I].
    + destruct (beqb kid (key_id (unkey kid))) eqn:B; [|exists x; split; [exact X|exact D]]. apply beqb_eq in B.
      rewrite serve_fst, X; cbn [app]; eexists; split; [reflexivity|].
      intros o I. apply in_app_or in I. destruct I as [I|[I|[]]]; [now apply D|]. injection I as U _. intros _.
      rewrite U in B. apply (N r). left. now rewrite B.
Qed.
Lemma own_ok : id_ok own_id. Proof. unfold id_ok, own_id. lia. Qed.
Lemma gentle_nil : forall t, gentle [] t. Proof. intros t id o []. Qed.
Ltac asked := intros; eexists; split; [apply ask_says; exact I|]; cbn; rewrite ?unkey_key by assumption; reflexivity.
Lemma party_linked : linked party_env LL S own_keys (fun t => fst (past_of t)) (fun t => snd (past_of t)).
Proof.
  split.
  - exact past_reached.
  - intros f t kt raw. eexists _, []. split; [apply ask_says; discriminate|]. split; [reflexivity|]. cbv zeta. split; [|apply gentle_nil].
    cbn [past_of]. now rewrite serve_fst.
  - intros f t id J. eexists _, []. split; [apply ask_says; exact I|]. cbn [o_destroy party_env]. rewrite unkey_key by exact J. split; [reflexivity|].
    cbv zeta. split; [|apply gentle_nil]. cbn [past_of]. rewrite unkey_key by exact J. now rewrite beqb_refl, serve_fst.
  - intros ev t K. exists []. split; [|apply gentle_nil]. rewrite app_nil_r. destruct ev; try discriminate K; reflexivity.
  - intros f t id np J. eexists. split.
    + apply ask_says. destruct (SuiteClaims.shipped_cases _ SH) as [-> | [-> | [-> | ->]]]; cbn; try exact I; discriminate.
    + cbn. rewrite unkey_key by exact J. reflexivity.
  - asked.
  - asked.
  - asked.
  - asked.
  - asked.
  - asked.
  - asked.
  - asked.
  - intros t id kt raw M N. unfold own_keys in M. destruct (Z.eqb_spec id own_id) as [->|]; [|discriminate M]. injection M as <- <-.
    split; [apply KE|]. split; [apply KE|]. destruct (past_own t N) as (x & X & D). exists [], x, (Some 0). rewrite X. split; [reflexivity|].
    intros o Io Ro. exact (D o Io Ro).
  - intros f t cr F. cbn [o_fetch party_env] in F. injection F as <-. exists own_id, (pa_kt P), (pa_raw P). split; [reflexivity|exact ME].
Qed.
End Device.

(** The primitives the toy libraries implement. *)
Definition prims_of (S : suite) : primitives := Prim
  (fun _ x => @x_hash LL (hash_of S) x) (@x_extract LL (hash_of S)) (@x_expand LL (hash_of S))
  (match S with SX _ => fun a => prepare (fit 32 a) | SW w => fun a => be (Z.to_nat (cv_len (ws_curve w))) (fst (@x_public LL (ws_curve w) a)) end)
  (match S with SX _ => fun a pk => @x_smult LL pk (prepare (fit 32 a)) | SW w => fun a pk => @x_ecdh LL (ws_curve w) a (unbe pk) 0 end)
  (@x_seal LL (aead_of S) (cs_tag (table S))) (@x_open LL (aead_of S) (cs_tag (table S))).
Lemma fit_same : forall n a, zlen a = n -> fit n a = a.
Proof. intros n a H. unfold fit. now apply take_app_exact. Qed.
Lemma prims_implement : forall S, implements LL S (prims_of S).
Proof.
  intros S. split; try reflexivity.
  - destruct S; [|reflexivity]. intros seed. cbn [prims_of p_pub x_keygen demo_libs fst snd]. f_equal. apply fit_same, zlen_fit. discriminate.
  - destruct S; [|reflexivity]. intros a pk Z _. cbn [prims_of p_dh]. now rewrite fit_same.
Qed.
Lemma prims_correct : forall S, correct (prims_of S).
Proof.
  intros S. split.
  - intros a b. destruct S; [|reflexivity]. cbn [prims_of p_dh p_pub x_smult demo_libs].
    rewrite !prepare_nonzero by (apply zlen_fit; discriminate). apply add_comm.
  - intros k n a x. cbn [prims_of p_dec p_enc]. exact (al_aead _ _ (demo_alike (fun _ _ => 0) (fun _ _ => 0)) _ _ _ _ _ _).
Qed.
Lemma party_uses : forall P, shipped (pa_suite P) -> kept (pa_suite P) (pa_kt P) /\ pa_kt P <> KT_MAKE_KEY_PAIR ->
  cr_priv (pa_me P) = key_id own_id -> fst (served P xs0 (HImport (pa_kt P) (pa_raw P) (Some 0))) = HO OK (Some own_id) [] [] ->
  uses (party_env P) (pa_suite P) (prims_of (pa_suite P)) (own_keys P).
Proof.
  intros P SH KE ME IO. exists LL, (fun t => fst (past_of P t)), (fun t => snd (past_of P t)).
  split; [split; [apply demo_fresh|apply demo_sized]|]. split; [apply prims_implement|now apply party_linked].
Qed.

(** Two devices with static Diffie-Hellman or signature keys, and their handshake. *)
Definition key_creds (k : Z) : creds := CR (key_id own_id) COSE_KID (CKid [k; 7; 7] false ENC_INT k []).
Definition long_of (S : suite) (kt k : Z) : bytes :=
  if kt =? KT_SIGNATURE then match S with SX _ => fit 64 [k; 5] | SW w => fit (cv_len (ws_curve w)) [k; 5] end else fit (cs_ecc (table S)) [k; 5].
Definition device_of (S : suite) (kt k : Z) : party :=
  Pa S kt (long_of S kt k) (key_creds k) ([3 - k; 7; 7], p_pub (prims_of S) (long_of S kt (3 - k))).
Definition party_setup (S : suite) (p meth : Z) : list api :=
  [AInit; AMethods (Some [meth]); ASuites (Some [table S]); ACid (Some (demo_cid p));
   ABindKeys (Some (KF (Some p) (Some p))); ABindCrypto (Some (demo_crypto p));
   ABindCred (Some (RF (Some p) (Some p)))].
Definition step {A} (m : M A) (w : world) (d : A) : A * world := match m w with Ret a w' => (a, w') | Ub _ => (d, w) end.
Definition new_events (w w' : world) : list event := firstn (length (w_tr w') - length (w_tr w)) (w_tr w').
Definition rows (S : suite) (kt meth : Z) : pair_of_trips :=
  let EI := party_env (device_of S kt 1) in let ER := party_env (device_of S kt 2) in
  let a0 := world_of (@runs EI (party_setup S 1 meth) blank) blank in
  let b0 := world_of (@runs ER (party_setup S 2 meth) blank) blank in
  let '((r1, m1), a1) := step (@message_1_compose EI true 400) a0 (1, []) in
  let '(q1, b1) := step (@message_1_process ER true m1) b0 1 in
  let '((q2, m2), b2) := step (@message_2_compose ER true 400) b1 (1, []) in
  let '(r2, a2) := step (@message_2_process EI true m2) a1 1 in
  let '((r3, m3), a3) := step (@message_3_compose EI true 400) a2 (1, []) in
  let '(q3, b3) := step (@message_3_process ER true m3) b2 1 in
  PT (Trip (w_ctx a0) (w_ctx a1) (w_ctx a2) (w_ctx a3) (new_events a0 a1) (new_events a1 a2) (new_events a2 a3))
     (Trip (w_ctx b0) (w_ctx b1) (w_ctx b2) (w_ctx b3) (new_events b0 b1) (new_events b1 b2) (new_events b2 b3)) m1 m2 m3
     ((r1 =? OK) && (q1 =? OK) && (q2 =? OK) && (r2 =? OK) && (r3 =? OK) && (q3 =? OK)).

Lemma grown : forall w w', (exists e, w_tr w' = e ++ w_tr w) -> w_tr w' = new_events w w' ++ w_tr w.
Proof.
  intros w w' [e X]. unfold new_events. rewrite X, app_length. replace (length e + length (w_tr w) - length (w_tr w))%nat with (length e + 0)%nat by lia.
  now rewrite firstn_app_2, app_nil_r.
Qed.
Lemma step_out {E : env} : forall a m w r b w', do_api a = msg_out m -> r = OK -> step m w (1, []) = ((r, b), w') ->
  m w = Ret (OK, b) w' /\ w_tr w' = new_events w w' ++ w_tr w.
Proof.
  intros a m w r b w' D -> R. unfold step in R. destruct (m w) as [x w1|] eqn:X; [|discriminate R]. injection R as -> ->.
  split; [reflexivity|]. apply grown. destruct (asks_once E a w (OK, OBytes b) w') as (e & T & _); [|eauto].
  rewrite D. unfold msg_out, bind. now rewrite X.
Qed.
Lemma step_in {E : env} : forall a m w r w', do_api a = no_out m -> r = OK -> step m w 1 = (r, w') ->
  m w = Ret OK w' /\ w_tr w' = new_events w w' ++ w_tr w.
Proof.
  intros a m w r w' D -> R. unfold step in R. destruct (m w) as [x w1|] eqn:X; [|discriminate R]. injection R as -> ->.
  split; [reflexivity|]. apply grown. destruct (asks_once E a w (OK, ONone) w') as (e & T & _); [|eauto].
  rewrite D. unfold no_out, bind. now rewrite X.
Qed.
Definition config_runs (E : env) (l : list api) : bool :=
  match @runs E l blank with Ret _ w => match w_tr w with [] => true | _ => false end | Ub _ => false end.
Lemma config_from_init : forall (E : env) l, config_only l = true -> config_runs E l = true ->
  from_init (w_ctx (world_of (runs l blank) blank)) /\ w_tr (world_of (runs l blank) blank) = [].
Proof.
  intros E l H R. unfold config_runs in R. destruct l as [|[] l]; try discriminate H. cbn [config_only] in H.
  destruct (runs (AInit :: l) blank) as [rs [c t]|] eqn:X; [|discriminate R]. cbn [w_tr] in R. destruct t; [|discriminate R].
  cbn [world_of w_ctx w_tr]. split; [|reflexivity]. exists ctx0, l, rs. split; [|exact X].
  apply Forall_forall. intros a I. rewrite forallb_forall in H. auto.
Qed.
Definition checks (S : suite) (p : primitives) (mi mr : Z -> option (Z * bytes)) (x : pair_of_trips) : bool :=
  let a := pt_i x in let b := pt_r x in
  pt_good x && messageb (pt_m1 x) && messageb (pt_m2 x) && messageb (pt_m3 x) &&
  honestb p (keys_of mr) (responder_static (my_method (s0 a))) (ev2 b) (ev2 a) &&
  honestb p (keys_of mi) (initiator_static (my_method (s0 a))) (ev3 a) (ev3 b) &&
  csuite_eqb (my_suite (s0 a)) (table S) && csuite_eqb (my_suite (s0 b)) (table S) && typedb (s0 a) (ev1 a).
Definition rows_ok (S : suite) (kt meth : Z) : bool :=
  pt_good (rows S kt meth) &&
  config_runs (party_env (device_of S kt 1)) (party_setup S 1 meth) && config_runs (party_env (device_of S kt 2)) (party_setup S 2 meth) &&
  checks S (prims_of S) (own_keys (device_of S kt 1)) (own_keys (device_of S kt 2)) (rows S kt meth).
Definition deployed_rows (S : suite) (kt meth : Z) : Prop :=
  let x := rows S kt meth in
  deployed (party_env (device_of S kt 1)) (party_env (device_of S kt 2)) S (prims_of S)
    (own_keys (device_of S kt 1)) (own_keys (device_of S kt 2)) (pt_i x) (pt_r x) (pt_m1 x) (pt_m2 x) (pt_m3 x).
Lemma rows_run : forall S kt meth, pt_good (rows S kt meth) = true ->
  config_runs (party_env (device_of S kt 1)) (party_setup S 1 meth) = true ->
  config_runs (party_env (device_of S kt 2)) (party_setup S 2 meth) = true ->
  let x := rows S kt meth in
  @initiator_run (party_env (device_of S kt 1)) (pt_i x) (pt_m1 x) (pt_m2 x) (pt_m3 x) /\
  @responder_run (party_env (device_of S kt 2)) (pt_r x) (pt_m1 x) (pt_m2 x) (pt_m3 x).
Proof.
  intros S kt meth G C1 C2. cbv zeta. revert G.
  destruct (config_from_init (party_env (device_of S kt 1)) (party_setup S 1 meth) eq_refl C1) as [F1 T1].
  destruct (config_from_init (party_env (device_of S kt 2)) (party_setup S 2 meth) eq_refl C2) as [F2 T2].
  unfold rows. set (EI := party_env (device_of S kt 1)) in *. set (ER := party_env (device_of S kt 2)) in *. cbv zeta.
  set (a0 := world_of (@runs EI _ blank) blank) in *. set (b0 := world_of (@runs ER _ blank) blank) in *. clearbody a0 b0 EI ER.
  destruct (step (@message_1_compose EI true 400) _ _) as [[r1 m1] a1] eqn:X1.
  destruct (step (@message_1_process ER true m1) _ _) as [q1 b1] eqn:Y1.
  destruct (step (@message_2_compose ER true 400) _ _) as [[q2 m2] b2] eqn:Y2.
  destruct (step (@message_2_process EI true m2) _ _) as [r2 a2] eqn:X2.
  destruct (step (@message_3_compose EI true 400) _ _) as [[r3 m3] a3] eqn:X3.
  destruct (step (@message_3_process ER true m3) _ _) as [q3 b3] eqn:Y3.
  cbn [pt_good pt_i pt_r pt_m1 pt_m2 pt_m3]. intro G. repeat (apply andb_true_iff in G as [G ?]).
  repeat match goal with H : (_ =? OK) = true |- _ => apply Z.eqb_eq in H end.
  destruct (@step_out EI (AM1Compose true 400) _ _ _ _ _ eq_refl G X1) as [Z1 U1].
  destruct (@step_in ER (AM1Process true m1) _ _ _ _ eq_refl H3 Y1) as [W1 V1].
  destruct (@step_out ER (AM2Compose true 400) _ _ _ _ _ eq_refl H2 Y2) as [W2 V2].
  destruct (@step_in EI (AM2Process true m2) _ _ _ _ eq_refl H1 X2) as [Z2 U2].
  destruct (@step_out EI (AM3Compose true 400) _ _ _ _ _ eq_refl H0 X3) as [Z3 U3].
  destruct (@step_in ER (AM3Process true m3) _ _ _ _ eq_refl H Y3) as [W3 V3].
  rewrite T1, app_nil_r in U1. rewrite T2, app_nil_r in V1. rewrite U1 in U2. rewrite V1 in V2. rewrite U2 in U3. rewrite V2 in V3.
  unfold initiator_run, responder_run. cbn [s0 s1 s2 s3 ev1 ev2 ev3]. rewrite <- U3, <- V3, <- U2, <- V2, <- U1, <- V1.
  assert (EA : forall w, Wd (w_ctx w) (w_tr w) = w) by now intros [].
  split; (split; [assumption|]).
  - exists true, 400, true, true, 400. rewrite <- T1, !EA. auto.
  - exists true, true, 400, true. rewrite <- T2, !EA. auto.
Qed.
#[local] Strategy 1000 [rows served hrun step party_env prims_of].
Lemma deploy : forall EI ER S p mi mr x, shipped S -> correct p -> uses EI S p mi -> uses ER S p mr ->
  @initiator_run EI (pt_i x) (pt_m1 x) (pt_m2 x) (pt_m3 x) -> @responder_run ER (pt_r x) (pt_m1 x) (pt_m2 x) (pt_m3 x) ->
  checks S p mi mr x = true -> deployed EI ER S p mi mr (pt_i x) (pt_r x) (pt_m1 x) (pt_m2 x) (pt_m3 x).
Proof.
  intros EI ER S p mi mr x SH CO UI UR RI RR H. unfold checks in H. cbv zeta in H. repeat (apply andb_true_iff in H as [H ?]).
  do 4 (split; [assumption|]). do 2 (split; [now apply csuite_eqb_eq|]). do 2 (split; [assumption|]). do 3 (split; [now apply message_check|]).
  split; [now apply typed_check|]. split; now apply honest_check.
Qed.
Lemma rows_deployed : forall S kt meth, shipped S -> kept S kt /\ kt <> KT_MAKE_KEY_PAIR ->
  fst (served (device_of S kt 1) xs0 (HImport kt (long_of S kt 1) (Some 0))) = HO OK (Some own_id) [] [] ->
  fst (served (device_of S kt 2) xs0 (HImport kt (long_of S kt 2) (Some 0))) = HO OK (Some own_id) [] [] ->
  rows_ok S kt meth = true -> deployed_rows S kt meth.
Proof.
  intros S kt meth SH KE I1 I2 H. unfold rows_ok in H. apply andb_true_iff in H as [H C]. apply andb_true_iff in H as [H C2].
  apply andb_true_iff in H as [G C1]. destruct (rows_run S kt meth G C1 C2) as [RI RR].
  exact (deploy _ _ _ _ _ _ (rows S kt meth) SH (prims_correct S) (party_uses (device_of S kt 1) SH KE eq_refl I1)
    (party_uses (device_of S kt 2) SH KE eq_refl I2) RI RR C).
Qed.
(** Later calls. *)
Definition rows_after (E : env) (a : trip) (l : list api) : list result * list event :=
  let t := ev3 a ++ ev2 a ++ ev1 a in
  match @runs E l (Wd (s3 a) t) with Ret rs w => (rs, new_events (Wd (s3 a) t) w) | Ub _ => ([], []) end.
Lemma runs_grow {E : env} : forall l w rs w', runs l w = Ret rs w' -> exists e, w_tr w' = e ++ w_tr w.
Proof.
  induction l as [|a l IH]; intros w rs w' R; cbn [runs] in R.
  - injection R as _ <-. now exists [].
  - unfold bind in R. destruct (do_api a w) as [r w1|] eqn:X; [|discriminate R]. destruct (runs l w1) as [rs' w2|] eqn:Y; [|discriminate R].
    injection R as _ <-. destruct (asks_once E a w r w1 X) as (e1 & T1 & _). destruct (IH _ _ _ Y) as [e2 T2].
    exists (e2 ++ e1). now rewrite T2, T1, app_assoc.
Qed.
Lemma rows_afterwards : forall (E : env) a l, forallb session_call l = true -> returns (runs l (Wd (s3 a) (ev3 a ++ ev2 a ++ ev1 a))) = true ->
  afterwards a (fst (rows_after E a l)) (snd (rows_after E a l)).
Proof.
  intros E a l H R. unfold rows_after. destruct (runs l (Wd (s3 a) _)) as [rs w|] eqn:X; [|discriminate R]. cbn [fst snd].
  exists l, (w_ctx w). split; [apply Forall_forall; intros x I; rewrite forallb_forall in H; auto|].
  rewrite X. pose proof (grown _ _ (runs_grow _ _ _ _ X)) as G. cbn [w_tr] in G. rewrite <- G. now destruct w.
Qed.
