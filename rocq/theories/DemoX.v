(** Honest exchanges of the demonstration parties meet the premises of the agreement theorems.

    No code of /repo is modelled here: a checker for the premises and its soundness. *)
From Verif Require Import Monad Api Common Msg1 Msg2 Msg3 Msg4 Exporter Helpers History Spec Rfc Uses
  Conform Facts Sessions Demo.

(** The toy primitives satisfy the laws. *)
Definition toy : primitives := Prim
  (fun n x => mixes n x) (fun salt ikm => mixes 32 (ikm ++ salt)) (fun prk i n => mixes n (prk ++ i))
  toy_pub toy_mul (fun k n a x => x ++ toy_tag k n a x)
  (fun k n a y => let x := take (zlen y - 8) y in
     if beqb (drop (zlen y - 8) y) (toy_tag k n a x) then Some x else None).
Lemma toy_sym : forall a b, toy_mul a (toy_pub b) = toy_mul b (toy_pub a).
Proof.
  induction a as [|x a IH]; intros [|y b]; try reflexivity.
  change (toy_mul (x :: a) (toy_pub (y :: b))) with ((x * ((5 * y) mod 256)) mod 256 :: toy_mul a (toy_pub b)).
  change (toy_mul (y :: b) (toy_pub (x :: a))) with ((y * ((5 * x) mod 256)) mod 256 :: toy_mul b (toy_pub a)).
  rewrite IH. f_equal. rewrite !Zmult_mod_idemp_r. f_equal. lia.
Qed.
Lemma toy_correct : correct toy.
Proof.
  split; [exact toy_sym|]. intros k n a x. cbn [p_dec p_enc toy].
  assert (L : zlen (toy_tag k n a x) = 8) by (unfold toy_tag, mixes, zlen; rewrite map_length, seq_length; reflexivity).
  rewrite zlen_app, L. replace (zlen x + 8 - 8) with (zlen x) by lia.
  rewrite take_app_exact, drop_app_exact by reflexivity. now rewrite beqb_refl.
Qed.

(** Checker for [obeys]. *)
Section Check.
Variables (p : primitives) (sk : bytes -> bytes).
Definition keyed_eq (kid : bytes) (kt : Z) (t : list event) (f : bytes -> bool) : bool :=
  match key_of kid t with Some (kt', k) => if kt' =? kt then f k else true | None => true end.
Definition ev_ok (e : event) (t : list event) : bool :=
  match e with
  | EvHash x n r y => negb (r =? OK) || (zlen y =? n) && beqb y (p_hash p n x)
  | EvExpand kid i n r o => negb (r =? OK) || (zlen o =? n) && keyed_eq kid KT_EXPAND t (fun k => beqb o (p_expand p k i n))
  | EvExtract kid s r o => negb (r =? OK) || keyed_eq kid KT_EXTRACT t (fun k => beqb o (p_extract p s k))
  | EvMkPair _ r priv pub => negb (r =? OK) || beqb pub (p_pub p priv)
  | EvAgree kid peer r g => negb (r =? OK) ||
      beqb g (p_dh p (sk kid) peer) && keyed_eq kid KT_KEY_AGREEMENT t (fun k => beqb g (p_dh p k peer))
  | EvEncrypt kid n a x r y => negb (r =? OK) || keyed_eq kid KT_ENCRYPT t (fun k => beqb y (p_enc p k n a x))
  | EvDecrypt kid n a y r x => negb (r =? OK) || keyed_eq kid KT_DECRYPT t (fun k =>
      match p_dec p k n a y with Some x' => beqb x x' | None => false end)
  | _ => true
  end.
Fixpoint evs_ok (t : list event) : bool :=
  match t with [] => true | e :: t' => ev_ok e t' && evs_ok t' end.
Lemma evs_ok_at : forall t1 e t2, evs_ok (t1 ++ e :: t2) = true -> ev_ok e t2 = true.
Proof.
  induction t1 as [|x t1 IH]; intros e t2 H; cbn [app evs_ok] in H; apply andb_true_iff in H as [A B]; [exact A|now apply IH].
Qed.
Lemma evs_ok_in : forall t e, evs_ok t = true -> In e t -> exists t2, ev_ok e t2 = true.
Proof. intros t e H I. apply in_split in I as (t1 & t2 & ->). exists t2. now apply (evs_ok_at t1). Qed.
Lemma evs_ok_key : forall t e kid kt key, evs_ok t = true -> with_key t e kid kt key ->
  exists t2, ev_ok e t2 = true /\ key_of kid t2 = Some (kt, key).
Proof. intros t e kid kt key H (t1 & t2 & -> & K). exists t2. split; [now apply (evs_ok_at t1)|exact K]. Qed.
Lemma obeys_check : forall t, evs_ok t = true -> obeys p sk t.
Proof.
  intros t H. repeat split.
  - intros x n y I. apply (evs_ok_in _ _ H) in I as [t2 I]. cbn in I. apply andb_true_iff in I as [A _]. now apply Z.eqb_eq.
  - intros kid i n y I. apply (evs_ok_in _ _ H) in I as [t2 I]. cbn in I. apply andb_true_iff in I as [A _]. now apply Z.eqb_eq.
  - intros x n y I. apply (evs_ok_in _ _ H) in I as [t2 I]. cbn in I. apply andb_true_iff in I as [_ A]. now apply beqb_eq.
  - intros kid s i k W. apply (evs_ok_key _ _ _ _ _ H) in W as (t2 & I & K). cbn [ev_ok] in I. unfold keyed_eq in I. rewrite K, Z.eqb_refl in I. now apply beqb_eq.
  - intros kid i n o k W. apply (evs_ok_key _ _ _ _ _ H) in W as (t2 & I & K). cbn [ev_ok] in I. unfold keyed_eq in I. rewrite K, Z.eqb_refl in I.
    cbn [negb orb Z.eqb OK] in I. apply andb_true_iff in I as [_ A]. now apply beqb_eq.
  - intros kid a b I. apply (evs_ok_in _ _ H) in I as [t2 I]. now apply beqb_eq.
  - intros kid peer g k W. apply (evs_ok_key _ _ _ _ _ H) in W as (t2 & I & K). cbn [ev_ok] in I. unfold keyed_eq in I. rewrite K, Z.eqb_refl in I.
    cbn [negb orb Z.eqb OK] in I. apply andb_true_iff in I as [_ A]. now apply beqb_eq.
  - intros kid peer g I _. apply (evs_ok_in _ _ H) in I as [t2 I]. cbn [ev_ok negb orb Z.eqb OK] in I. apply andb_true_iff in I as [A _]. now apply beqb_eq.
  - intros kid n a x y k W. apply (evs_ok_key _ _ _ _ _ H) in W as (t2 & I & K). cbn [ev_ok] in I. unfold keyed_eq in I. rewrite K, Z.eqb_refl in I. now apply beqb_eq.
  - intros kid n a x y k W. apply (evs_ok_key _ _ _ _ _ H) in W as (t2 & I & K). cbn [ev_ok] in I. unfold keyed_eq in I. rewrite K, Z.eqb_refl in I.
    cbn [negb orb Z.eqb OK] in I. destruct (p_dec p k n a y) as [x'|]; [|discriminate]. f_equal. symmetry. now apply beqb_eq.
Qed.
End Check.
Definition expands_okb (t : list event) : bool :=
  forallb (fun e => match e with EvExpand _ _ _ r _ => r =? OK | _ => true end) t.
Lemma expands_check : forall t, expands_okb t = true -> expands_ok t.
Proof. intros t H kid i n r o I. unfold expands_okb in H. rewrite forallb_forall in H. apply H in I. now apply Z.eqb_eq. Qed.
Definition fetched (t : list event) : list creds :=
  flat_map (fun e => match e with EvFetch r cr => if r =? OK then [cr] else [] | _ => [] end) t.
Definition vouched (t : list event) : list (creds * bytes) :=
  flat_map (fun e => match e with EvCredVerify _ r cr pub => if r =? OK then [(cr, pub)] else [] | _ => [] end) t.
Lemma in_fetched : forall t cr, In (EvFetch OK cr) t -> In cr (fetched t).
Proof. intros t cr H. unfold fetched. apply in_flat_map. eexists. split; [exact H|]. now left. Qed.
Lemma in_vouched : forall t c cr pub, In (EvCredVerify c OK cr pub) t -> In (cr, pub) (vouched t).
Proof. intros t c cr pub H. unfold vouched. apply in_flat_map. eexists. split; [exact H|]. now left. Qed.
Definition apartb (t : list event) : bool :=
  forallb (fun cr => forallb (fun e => match e with EvImport _ _ r kid => negb ((r =? OK) && beqb kid (cr_priv cr)) | _ => true end) t) (fetched t).
Lemma apart_check : forall t, apartb t = true -> apart t.
Proof.
  intros t H cr kt key F I. apply in_fetched in F. unfold apartb in H. rewrite forallb_forall in H. apply H in F.
  rewrite forallb_forall in F. apply F in I. now rewrite beqb_refl in I.
Qed.
Definition honestb (p : primitives) (sk : bytes -> bytes) (static : bool) (f v : list event) : bool :=
  forallb (fun cr => forallb (fun x => beqb (cred_bytes_of (fst x)) (cred_bytes_of cr) &&
    (negb static || beqb (snd x) (p_pub p (sk (cr_priv cr))))) (vouched v)) (fetched f).
Lemma honest_check : forall p sk st f v, honestb p sk st f v = true -> honest_credential p sk st f v.
Proof.
  intros p sk st f v H cr cr0 cr' pub F V. apply in_fetched in F. apply in_vouched in V. unfold honestb in H. rewrite forallb_forall in H.
  apply H in F. rewrite forallb_forall in F. apply F in V. cbn [fst snd] in V. apply andb_true_iff in V as [A B]. split; [now apply beqb_eq|].
  intros ->. now apply beqb_eq.
Qed.
Definition int32b (v : Z) : bool := (- 2 ^ 31 <=? v) && (v <? 2 ^ 31).
Definition typedb (c : ctx) (e : list event) : bool :=
  forallb int32b (c_methods c) && forallb (fun s => int32b (cs_value s)) (c_csuites c) &&
  forallb (fun x => match x with EvEadCompose _ _ l => forallb (fun k => int32b (tk_label k)) l | _ => true end) e.
Lemma int32_check : forall v, int32b v = true -> int32 v.
Proof. intros v H. unfold int32b, int32 in *. lia. Qed.
Lemma typed_check : forall c e, typedb c e = true -> typed c e.
Proof.
  intros c e H. apply andb_true_iff in H as [H C]. apply andb_true_iff in H as [A B]. rewrite forallb_forall in A, B, C. split; [|split].
  - apply Forall_forall. intros. apply int32_check. auto.
  - apply Forall_forall. intros. apply int32_check. auto.
  - intros m l k I J. apply C in I. rewrite forallb_forall in I. apply int32_check. auto.
Qed.
Definition sizesb (s : csuite) : bool :=
  (0 <=? cs_hash s) && (cs_hash s <? 2 ^ 32) && (0 <=? cs_mac s) && (cs_mac s <? 2 ^ 32) && (0 <=? cs_key s) &&
  (cs_key s <? 2 ^ 32) && (0 <=? cs_iv s) && (cs_iv s <? 2 ^ 32) && (0 <=? cs_ecc s).
Lemma sizes_check : forall s, sizesb s = true -> sizes_ok s.
Proof. intros s H. unfold sizesb, sizes_ok in *. lia. Qed.
Definition messageb (m : bytes) : bool := wf_bytesb m && (zlen m <? 2 ^ 32).
Lemma message_check : forall m, messageb m = true -> is_message m.
Proof.
  intros m H. apply andb_true_iff in H as [A B]. split; [|lia]. apply Forall_forall. intros x I. unfold wf_bytesb in A. rewrite forallb_forall in A.
  apply A in I. unfold is_byteb in I. unfold is_byte. lia.
Qed.

Definition csuite_eqb (x y : csuite) : bool :=
  (cs_value x =? cs_value y) && (cs_key x =? cs_key y) && (cs_tag x =? cs_tag y) && (cs_iv x =? cs_iv y) &&
  (cs_hash x =? cs_hash y) && (cs_mac x =? cs_mac y) && (cs_ecc x =? cs_ecc y) && (cs_sign x =? cs_sign y).
Lemma csuite_eqb_eq : forall x y, csuite_eqb x y = true -> x = y.
Proof. intros [] [] H. unfold csuite_eqb in H. cbn in H. f_equal; lia. Qed.

(** The trips of the two demonstration parties. *)
Definition dead_world : world := Wd ctx0 [].
Definition run_m {A} (m : M A) (c : ctx) (d : A) : A * (ctx * list event) :=
  match m (Wd c []) with Ret a w => (a, (w_ctx w, w_tr w)) | Ub _ => (d, (ctx0, [])) end.
Section Trips.
Context {E : env}.
Variables si sr : list api.
Definition start_of (l : list api) : ctx := w_ctx (world_of (runs l blank) blank).
Record pair_of_trips := PT { pt_i : trip; pt_r : trip; pt_m1 : bytes; pt_m2 : bytes; pt_m3 : bytes; pt_good : bool }.
Definition trips : pair_of_trips :=
  let a0 := start_of si in let b0 := start_of sr in
  let '((r1, m1), (a1, e1)) := run_m (message_1_compose true 400) a0 (1, []) in
  let '(q1, (b1, f1)) := run_m (message_1_process true m1) b0 1 in
  let '((q2, m2), (b2, f2)) := run_m (message_2_compose true 400) b1 (1, []) in
  let '(r2, (a2, e2)) := run_m (message_2_process true m2) a1 1 in
  let '((r3, m3), (a3, e3)) := run_m (message_3_compose true 400) a2 (1, []) in
  let '(q3, (b3, f3)) := run_m (message_3_process true m3) b2 1 in
  PT (Trip a0 a1 a2 a3 e1 e2 e3) (Trip b0 b1 b2 b3 f1 f2 f3) m1 m2 m3
     ((r1 =? OK) && (q1 =? OK) && (q2 =? OK) && (r2 =? OK) && (r3 =? OK) && (q3 =? OK)).
Lemma run_m_inv : forall A (m : M A) c d a c' e, run_m m c d = (a, (c', e)) -> a <> d -> m (Wd c []) = Ret a (Wd c' (e ++ [])).
Proof.
  intros A m c d a c' e H N. unfold run_m in H. destruct (m (Wd c [])) as [x [c1 t1]|]; injection H as <- <- <-; [|contradiction].
  now rewrite app_nil_r.
Qed.
Definition all_of (x : pair_of_trips) (p : primitives) (sk : bytes -> bytes) : bool :=
  let a := pt_i x in let b := pt_r x in
  pt_good x && messageb (pt_m1 x) && messageb (pt_m2 x) && messageb (pt_m3 x) &&
  evs_ok p sk (ev1 a) && evs_ok p sk (ev2 a) && evs_ok p sk (ev3 a) &&
  evs_ok p sk (ev1 b) && evs_ok p sk (ev2 b) && evs_ok p sk (ev3 b) && apartb (ev3 a) && apartb (ev2 b) &&
  honestb p sk (responder_static (my_method (s0 a))) (ev2 b) (ev2 a) &&
  honestb p sk (initiator_static (my_method (s0 a))) (ev3 a) (ev3 b) &&
  sizesb (my_suite (s0 a)) && sizesb (my_suite (s0 b)) && typedb (s0 a) (ev1 a).
Definition all_ok : primitives -> (bytes -> bytes) -> bool := all_of trips.
Lemma trips_start : s0 (pt_i trips) = start_of si /\ s0 (pt_r trips) = start_of sr.
Proof. unfold trips. cbv zeta. repeat match goal with |- context [let '_ := ?u in _] => destruct u end. split; reflexivity. Qed.
Definition config_only (l : list api) : bool := match l with AInit :: l' => forallb is_config l' | _ => false end.
Definition returns {A} (r : res A) : bool := match r with Ret _ _ => true | Ub _ => false end.
Lemma start_configured : forall l, config_only l = true -> returns (runs l blank) = true -> configured (start_of l).
Proof.
  intros l H R. destruct l as [|[] l]; try discriminate H. cbn [config_only] in H. unfold start_of.
  destruct (runs (AInit :: l) blank) as [rs [c t]|] eqn:X; [|discriminate R]. exists ctx0, l, rs, t. split; [|exact X].
  apply Forall_forall. intros a I. rewrite forallb_forall in H. auto.
Qed.
Lemma trips_exchange : forall p sk, correct p -> config_only si = true -> config_only sr = true ->
  returns (runs si blank) = true -> returns (runs sr blank) = true ->
  my_suite (s0 (pt_i trips)) = my_suite (s0 (pt_r trips)) -> all_ok p sk = true ->
  exchange E E p sk sk (pt_i trips) (pt_r trips) (pt_m1 trips) (pt_m2 trips) (pt_m3 trips).
Proof.
  intros p sk CP C1 C2 R1 R2 ES H. unfold all_ok, all_of in H. cbv zeta in H.
  repeat (apply andb_true_iff in H as [H ?]). rename H into G.
  assert (K : initiator (pt_i trips) (pt_m1 trips) (pt_m2 trips) (pt_m3 trips) /\
              responder (pt_r trips) (pt_m1 trips) (pt_m2 trips) (pt_m3 trips) /\
              s0 (pt_i trips) = start_of si /\ s0 (pt_r trips) = start_of sr).
  { clear - G. revert G. unfold trips. cbv zeta.
    destruct (run_m (message_1_compose true 400) _ _) as [[r1 m1] [a1 e1]] eqn:X1.
    destruct (run_m (message_1_process true m1) _ _) as [q1 [b1 f1]] eqn:Y1.
    destruct (run_m (message_2_compose true 400) _ _) as [[q2 m2] [b2 f2]] eqn:Y2.
    destruct (run_m (message_2_process true m2) _ _) as [r2 [a2 e2]] eqn:X2.
    destruct (run_m (message_3_compose true 400) _ _) as [[r3 m3] [a3 e3]] eqn:X3.
    destruct (run_m (message_3_process true m3) _ _) as [q3 [b3 f3]] eqn:Y3.
    cbn [pt_good pt_i pt_r pt_m1 pt_m2 pt_m3]. intro G. repeat (apply andb_true_iff in G as [G ?]).
    repeat match goal with H : (_ =? OK) = true |- _ => apply Z.eqb_eq in H; subst end.
    unfold initiator, responder. cbn [s0 s1 s2 s3 ev1 ev2 ev3].
    apply run_m_inv in X1, X2, X3, Y1, Y2, Y3; try discriminate. repeat split; try (do 3 eexists; eassumption); do 2 eexists; eassumption. }
  destruct K as (K1 & K2 & K3 & K4). unfold exchange.
  split; [rewrite K3; now apply start_configured|]. split; [rewrite K4; now apply start_configured|].
  split; [exact K1|]. split; [exact K2|]. do 3 (split; [now apply message_check|]). split; [exact CP|].
  split; [split; [|split]; now apply obeys_check|].
  split; [split; [|split]; now apply obeys_check|].
  do 2 (split; [now apply apart_check|]). do 2 (split; [now apply honest_check|]). do 2 (split; [now apply sizes_check|]).
  split; [now apply typed_check|]. intros _. exact ES.
Qed.
End Trips.

(** Demonstration: every method, with certificates, and with key identifiers. *)
Definition sk_demo (kid : bytes) : bytes := tl kid.
Definition knobs_kid : knobs := Kn None (fun _ _ _ => true) kid_creds (fun m u => [TK (5 + m) (zstr_of [1; 2; u])]).
(** One condition, decided by running the exchange. *)
Definition demo_trips (k : knobs) (m : Z) : pair_of_trips := @trips (demo_env k) (setup_ead 1 m) (setup_ead 2 m).
Definition ok_of (E : env) (si sr : list api) (good : bool) : bool :=
  returns (@runs E si blank) && returns (@runs E sr blank) && config_only si && config_only sr &&
  csuite_eqb (my_suite (@start_of E si)) (my_suite (@start_of E sr)) && good.
Lemma ok_exchange : forall E si sr, ok_of E si sr (all_of (@trips E si sr) toy sk_demo) = true ->
  exchange E E toy sk_demo sk_demo (pt_i (@trips E si sr)) (pt_r (@trips E si sr))
    (pt_m1 (@trips E si sr)) (pt_m2 (@trips E si sr)) (pt_m3 (@trips E si sr)).
Proof.
  intros E si sr H. unfold ok_of in H. repeat (apply andb_true_iff in H as [H ?]).
  apply trips_exchange; auto using toy_correct. destruct (trips_start (E := E) si sr) as [-> ->]. now apply csuite_eqb_eq.
Qed.
Definition demo_ok (k : knobs) (m : Z) : bool :=
  ok_of (demo_env k) (setup_ead 1 m) (setup_ead 2 m) (all_of (demo_trips k m) toy sk_demo).
Definition demo_exchange_of (k : knobs) (m : Z) : Prop :=
  exchange (demo_env k) (demo_env k) toy sk_demo sk_demo (pt_i (demo_trips k m)) (pt_r (demo_trips k m))
    (pt_m1 (demo_trips k m)) (pt_m2 (demo_trips k m)) (pt_m3 (demo_trips k m)).
Lemma demo_exchange : forall k m, demo_ok k m = true -> demo_exchange_of k m.
Proof. intros k m. unfold demo_ok, demo_exchange_of, demo_trips. exact (ok_exchange (demo_env k) (setup_ead 1 m) (setup_ead 2 m)). Qed.
(** Two of the exchanges, written out. *)
Definition kid_1 : pair_of_trips := Eval vm_compute in demo_trips knobs_kid 1.
Definition kid_2 : pair_of_trips := Eval vm_compute in demo_trips knobs_kid 2.
Lemma kid_1_is : demo_trips knobs_kid 1 = kid_1.
Proof. vm_cast_no_check (eq_refl kid_1). Qed.
Lemma kid_2_is : demo_trips knobs_kid 2 = kid_2.
Proof. vm_cast_no_check (eq_refl kid_2). Qed.
Lemma demo_ok_1 : demo_ok knobs_kid 1 = true.
Proof. unfold demo_ok. rewrite kid_1_is. vm_cast_no_check (eq_refl true). Qed.
Lemma demo_ok_2 : demo_ok knobs_kid 2 = true.
Proof. unfold demo_ok. rewrite kid_2_is. vm_cast_no_check (eq_refl true). Qed.
Lemma demo_runs_kid : forall m, In m [0; 1; 2; 3] -> demo_ok knobs_kid m = true.
Proof.
  intros m [<-|[<-|[<-|[<-|[]]]]]; [vm_cast_no_check (eq_refl true)|exact demo_ok_1|exact demo_ok_2|vm_cast_no_check (eq_refl true)].
Qed.
Lemma demo_runs_0 : forall m, In m [0; 1; 2; 3] -> demo_ok knobs0 m = true.
Proof. intros m [<-|[<-|[<-|[<-|[]]]]]; vm_cast_no_check (eq_refl true). Qed.
(** A party's later history. *)
Definition after (E : env) (c : ctx) (l : list api) : list result * list event :=
  match @runs E l (Wd c []) with Ret rs w => (rs, w_tr w) | Ub _ => ([], []) end.
Definition after_ok (E : env) (c : ctx) (l : list api) : bool :=
  forallb session_call l && returns (@runs E l (Wd c [])) &&
  evs_ok toy sk_demo (snd (after E c l)) && expands_okb (snd (after E c l)).
Lemma after_later : forall E c l, after_ok E c l = true ->
  @later E c (fst (after E c l)) (snd (after E c l)) /\ obeys toy sk_demo (snd (after E c l)) /\
  expands_ok (snd (after E c l)).
Proof.
  intros E c l H. unfold after_ok in H. repeat (apply andb_true_iff in H as [H ?]).
  split; [|split; [now apply obeys_check|now apply expands_check]]. unfold after in *.
  destruct (@runs E l (Wd c [])) as [rs [c' t]|] eqn:R; [|discriminate]. cbn [fst snd w_tr] in *.
  exists l, [], c'. rewrite app_nil_r. split; [|exact R]. apply Forall_forall. intros a I. rewrite forallb_forall in H. auto.
Qed.
(** One side exports before and after a key update, the other only afterwards. *)
Definition later_i : list api := [AExport true 40000 16; AKeyUpdate true [7; 8]; AExport true 40001 8; AExport true 40000 16; AOscore true 16 8 64 64].
Definition later_r : list api := [AKeyUpdate true [7; 8]; AExport true 40000 16; AOscore true 16 8 64 64].
