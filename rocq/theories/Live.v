(** A completed session over any later history of exports, key updates and message 4. *)
From Verif Require Import Monad Api Common Msg1 Msg2 Msg3 Msg4 Exporter History Spec Rfc Uses
  Conform Wire Facts Logic Sym HistoryProofs CborProofs RfcProofs Steps Steps2 Steps3 Run2 Run2p Run4 Sessions Agree.

(** The fields that make a session. *)
Definition core (c : ctx) :=
  ((c_th c, c_th_len c, c_th_state c), (c_prk c, c_prk_len c, c_prk_state c),
   (c_csuites c, c_csuite_idx c, c_cid c, c_peer_cid c)).
Create HintDb kp.
Section Keep.
Context {E : env}.
(** [m] only adds events and keeps those fields. *)
Definition kp {A} (m : M A) : Prop := forall w, sat Any m w (fun _ w' =>
  (exists t, w_tr w' = t ++ w_tr w) /\ core (w_ctx w') = core (w_ctx w)).
Ltac one := split; [eexists (_ :: []); reflexivity|reflexivity].
Ltac none := split; [exists []; reflexivity|try reflexivity].
Lemma ret_kp : forall A (a : A), kp (ret a). Proof. intros A a w. apply sat_ret. none. Qed.
Lemma bind_kp : forall A B (m : M A) (k : A -> M B), kp m -> (forall a, kp (k a)) -> kp (bind m k).
Proof.
  intros A B m k Hm Hk w. apply sat_bind. eapply sat_conseq; [apply Hm|]. intros a w1 [[t1 T1] H1]. cbn beta in H1.
  eapply sat_conseq; [apply Hk|]. intros b w2 [[t2 T2] H2]. cbn beta in *. split; [|congruence].
  exists (t2 ++ t1). now rewrite T2, T1, app_assoc.
Qed.
Lemma getc_kp : kp getc. Proof. intro w. apply sat_getc. none. Qed.
Lemma check_kp : forall b u, kp (check b u). Proof. intros b u w. apply sy_check. intros _. none. Qed.
Lemma need_kp : forall A (o : option A) u, kp (need o u). Proof. intros A o u w. apply sy_need. intros a _. none. Qed.
Lemma fault_kp : forall A u, kp (@fault A u). Proof. intros A u w. now apply sat_fault. Qed.
Lemma modify_kp : forall f, (forall c, core (f c) = core c) -> kp (modify f).
Proof. intros f H w. apply sat_modify. none. apply H. Qed.
Lemma alloc_kp : forall a b, kp (alloc a b). Proof. intros a b w. apply sy_alloc; intros; one. Qed.
Lemma free_kp : forall a, kp (free a). Proof. intros a w. apply sy_free; intros; one. Qed.
Lemma import_kp : forall a b, kp (call_import a b). Proof. intros a b w. apply sy_import; intros; one. Qed.
Lemma destroy_kp : forall a, kp (call_destroy a). Proof. intros a w. apply sy_destroy; intros; one. Qed.
Lemma expand_kp : forall a b c, kp (call_expand a b c). Proof. intros a b c w. apply sy_expand; intros; one. Qed.
Lemma encrypt_kp : forall a b c d e, kp (call_encrypt a b c d e). Proof. intros a b c d e w. apply sy_encrypt; intros; one. Qed.
Lemma decrypt_kp : forall a b c d e, kp (call_decrypt a b c d e). Proof. intros a b c d e w. apply sy_decrypt; intros; one. Qed.
Lemma compose_kp : forall a b c, kp (call_compose a b c). Proof. intros a b c w. apply sy_compose; intros; one. Qed.
Lemma process_kp : forall a b c, kp (call_process a b c). Proof. intros a b c w. apply sy_process; intros; one. Qed.
Lemma suite_kp : kp get_suite. Proof. intro w. apply sy_get_suite; intros; none. Qed.
Lemma th_kp : kp get_th. Proof. intro w. apply sy_get_th; intros; none. Qed.
Lemma prk_kp : kp get_prk. Proof. intro w. apply sy_get_prk; intros; none. Qed.
End Keep.
#[export] Hint Resolve ret_kp getc_kp check_kp need_kp fault_kp alloc_kp free_kp import_kp destroy_kp expand_kp
  encrypt_kp decrypt_kp compose_kp process_kp suite_kp th_kp prk_kp : kp.
#[export] Hint Extern 1 (kp (modify _)) => (apply modify_kp; intro; reflexivity) : kp.
Ltac kp_step :=
  lazymatch goal with
  | |- kp (bind _ _) => apply bind_kp; [|intro]
  | |- kp (if ?b then _ else _) => destruct b
  | |- kp (match ?x with _ => _ end) => destruct x
  | |- kp (let _ := _ in _) => cbv zeta
  | |- kp _ => solve [auto 2 with kp nocore]
  end.
Ltac kp_auto := repeat kp_step.
Section Keep4.
Context {E : env}.
Lemma frees_kp : forall l, kp (frees l). Proof. induction l; cbn [frees]; kp_auto. Qed.
Hint Resolve frees_kp : kp.
Lemma fail_kp : forall l r, kp (fail l r). Proof. intros. unfold fail. kp_auto. Qed.
Lemma failp_kp : forall l r, kp (failp l r). Proof. intros. unfold failp. kp_auto. Qed.
Lemma rd_tok_kp : forall a b, kp (rd_tok a b). Proof. intros. unfold rd_tok. kp_auto. Qed.
Hint Resolve fail_kp failp_kp rd_tok_kp : kp.
Lemma read_toks_kp : forall p l, kp (read_toks p l). Proof. induction l; cbn [read_toks]; kp_auto. Qed.
Hint Resolve read_toks_kp : kp.
Lemma encode_tokens_kp : forall p n l, kp (encode_tokens p n l). Proof. intros. unfold encode_tokens. kp_auto. Qed.
Lemma ead_compose_kp : kp ead_compose. Proof. unfold ead_compose. kp_auto. Qed.
Lemma ead_process_kp : kp ead_process. Proof. unfold ead_process. kp_auto. Qed.
Lemma enter_kp : forall m r, kp (enter m r). Proof. intros. unfold enter. kp_auto. Qed.
Lemma expand_part_kp : forall a b c, kp (expand_part a b c). Proof. intros. unfold expand_part. kp_auto. Qed.
Hint Resolve encode_tokens_kp ead_compose_kp ead_process_kp enter_kp expand_part_kp : kp.
Lemma key_iv_aad_kp : forall a b c, kp (key_iv_aad a b c). Proof. intros. unfold key_iv_aad. kp_auto. Qed.
Hint Resolve key_iv_aad_kp : kp.
Lemma keys_4_kp : forall a b c, kp (compute_key_iv_aad_4 a b c). Proof. intros. unfold compute_key_iv_aad_4. kp_auto. Qed.
Lemma encrypt_4_kp : forall a b c d e, kp (aead_encrypt a b c d e). Proof. intros. unfold aead_encrypt. kp_auto. Qed.
Lemma decrypt_4_kp : forall a b c d e, kp (aead_decrypt a b c d e). Proof. intros. unfold aead_decrypt. kp_auto. Qed.
Lemma plaintext_4_kp : forall n, kp (prepare_plaintext_4 n). Proof. intros. unfold prepare_plaintext_4. kp_auto. Qed.
Hint Resolve keys_4_kp encrypt_4_kp decrypt_4_kp plaintext_4_kp : kp.
Lemma compose_4_kp : forall nn n, kp (message_4_compose nn n). Proof. intros. unfold message_4_compose. kp_auto. Qed.
Lemma process_4_kp : forall nn n, kp (message_4_process nn n). Proof. intros. unfold message_4_process. kp_auto. Qed.
End Keep4.

(** ** The invariant *)
(** The expansions of [t] are those of [p] and none failed. *)
Definition sound (p : primitives) (t : list event) : Prop :=
  full t /\ expands_ok t /\
  (forall kid i n o prk, with_key t (EvExpand kid i n OK o) kid KT_EXPAND prk -> o = p_expand p prk i n).
Lemma sound_app : forall p t t', sound p (t ++ t') -> sound p t /\ sound p t'.
Proof.
  intros p t t' (F & X & K). apply full_app in F as [F1 F2]. split; (split; [assumption|split]).
  - intros kid i n r o H. eapply X. apply in_or_app. left. exact H.
  - intros kid i n o prk H. eapply K. apply with_key_r. exact H.
  - intros kid i n r o H. eapply X. apply in_or_app. right. exact H.
  - intros kid i n o prk H. eapply K. apply with_key_l. exact H.
Qed.
Lemma sound_sub : forall p t t', sound p t' -> (exists a b, t' = a ++ t ++ b) -> sound p t.
Proof. intros p t t' H (a & b & ->). apply sound_app in H as [_ H]. now apply sound_app in H as [H _]. Qed.
(** An expansion found in a sound trace. *)
Lemma sound_expanded : forall p t prk i n o, sound p t -> expanded t prk i n o -> o = p_expand p prk i n.
Proof.
  intros p t prk i n o (F & X & K) (kid & y & W & L & ->). specialize (K _ _ _ _ _ W).
  assert (zlen y = n). { destruct W as (t1 & t2 & -> & _). destruct F as [_ F]. eapply F. apply in_or_app. right. now left. }
  rewrite arr_read_exact by assumption. exact K.
Qed.
(** A session with PRK_out [po], derived already or not. *)
Definition alive (p : primitives) (s : csuite) (th4 prk4 po : bytes) (c : ctx) : Prop :=
  the_suite c = s /\ c_prk_len c = cs_hash s /\ th_of c = th4 /\
  (c_prk_state c = PRK_4E3M /\ c_th_state c = TH_4 /\ prk_of c = prk4 /\ po = prk_out p (cs_hash s) th4 prk4 \/
   c_prk_state c = PRK_OUT /\ prk_of c = po).
Lemma alive_core : forall p s th4 prk4 po c c', core c' = core c -> alive p s th4 prk4 po c -> alive p s th4 prk4 po c'.
Proof.
  intros p s th4 prk4 po c c' H. unfold core in H. injection H as A1 A2 A3 B1 B2 B3 C1 C2 C3 C4.
  unfold alive, the_suite, csuite_at, th_of, prk_of. now rewrite ?A1, ?A2, ?A3, ?B1, ?B2, ?B3, ?C1, ?C2.
Qed.

Section Alive.
Context {E : env}.
Variable p : primitives.
Variable s : csuite.
Variables th4 prk4 : bytes.
Hypothesis Hs : 0 <= cs_hash s < 2 ^ 32.
Notation inv po := (alive p s th4 prk4 po).
(** [m] keeps the invariant. *)
Definition lv {A} (m : M A) : Prop := forall w a w', m w = Ret a w' ->
  exists t, w_tr w' = t ++ w_tr w /\ (sound p t -> forall po, inv po (w_ctx w) -> inv po (w_ctx w')).
Lemma kp_lv : forall A (m : M A), kp m -> lv m.
Proof.
  intros A m H w a w' R. destruct (sat_run _ _ _ _ _ _ _ (H w) R) as [[t T] K]. exists t. split; [exact T|].
  intros _ po L. eapply alive_core; [exact K|exact L].
Qed.
Lemma bind_lv : forall A B (m : M A) (k : A -> M B), lv m -> (forall a, lv (k a)) -> lv (bind m k).
Proof.
  intros A B m k Hm Hk w b w' R. apply bind_inv in R as (a & w1 & R1 & R2).
  apply Hm in R1 as (t1 & T1 & L1). apply Hk in R2 as (t2 & T2 & L2). exists (t2 ++ t1). split; [now rewrite T2, T1, app_assoc|].
  intros S po L. apply sound_app in S as [S2 S1]. apply L2; [exact S2|]. now apply L1.
Qed.
(** Derivations into the context: all paths. *)
Lemma all_kdf_into_prk : forall len label context c t cx, reads context c cx ->
  sat Any (kdf_into_prk len label context) (Wd c t) (fun r w' => exists t', w_tr w' = t' ++ t /\
    (r <> OK /\ w_ctx w' = c \/ ~ expands_ok t' \/
     r = OK /\ exists q, w_ctx w' = set_prk_state PRK_OUT (set_prk q c) /\
       (the_suite c = s -> c_prk_len c = cs_hash s -> sound p t' -> arr_read (cs_hash s) q = p_expand p (prk_of c) (info label cx (cs_hash s)) (cs_hash s)))).
Proof.
  intros len label context c t cx Hc. unfold kdf_into_prk. apply sat_bind, sy_get_suite. intros _. cbv beta.
  apply sat_bind, sy_alloc. intros ok. cs. destruct ok; cbn [negb]; [|apply sat_ret; eexists [_]; split; [reflexivity|left; split; [discriminate|reflexivity]]].
  apply sat_bind. eapply sat_conseq; [apply Hc|]. intros y w [-> ->]. cbv beta.
  destruct (fits len _) as [inf|] eqn:F.
  2:{ apply sat_bind, sy_free, sat_ret. eexists [_;_]. split; [reflexivity|left; split; [discriminate|reflexivity]]. }
  apply fits_some in F as [-> _]. apply sat_bind, sy_get_prk. intros _. cs. apply sat_bind, sy_import. intros r kid. cs.
  destruct (r =? OK) eqn:Er; cbn [negb]. 
  2:{ apply sat_bind, sy_free, sat_ret. eexists [_;_;_]. split; [reflexivity|left; split; [discriminate|reflexivity]]. }
  apply sat_bind, sat_getc. cs. apply sat_bind, sy_expand. intros r2 out Lo. cs. apply sat_bind, sy_put_prk. intros _. cs.
  apply sat_bind, sy_destroy. intros r3. cs. apply sat_bind, sy_free. cs. apply Z.eqb_eq in Er. subst r.
  destruct (r2 =? OK) eqn:Er2; cbn [negb].
  2:{ apply sat_ret. eexists [_;_;_;_;_]. split; [reflexivity|right; left]. intro X. apply Z.eqb_neq in Er2. apply Er2. eapply X.
      right. right. left. reflexivity. }
  apply Z.eqb_eq in Er2. subst r2. apply sat_bind, sat_modify. cs. apply sat_ret. eexists [_;_;_;_;_]. split; [reflexivity|]. right. right.
  split; [reflexivity|]. eexists. split; [reflexivity|]. intros Es Hp (FU & _ & K). rewrite Hp, Es, u32_id in * by assumption.
  assert (LN : zlen out = cs_hash s). { destruct FU as [_ FU]. eapply FU. right. right. left. reflexivity. }
  rewrite arr_read_blit by assumption. rewrite <- enc_info_rfc. apply (K kid). keyed.
Qed.
Lemma prk_out_lv : lv compute_prk_out.
Proof.
  intros [c t] r w' R.
  apply (sat_run Any _ compute_prk_out (Wd c t) (fun r w' => exists t0, w_tr w' = t0 ++ t /\
    (sound p t0 -> forall po, inv po c -> inv po (w_ctx w'))) r w'); [|exact R].
  unfold compute_prk_out. apply sat_bind, sat_getc. cs. destruct (_ || _) eqn:G.
  { apply sat_ret. exists []. split; [reflexivity|auto]. }
  apply sat_bind, sy_get_suite. intros _. cs. 
  eapply sat_conseq; [apply all_kdf_into_prk, reads_th|]. intros r' w2 (t' & T & H). exists t'. split; [exact T|].
  intros S po L. destruct H as [[_ ->]|[H|[_ (q & -> & H)]]]; [exact L|destruct S as (_ & S & _); contradiction|].
  destruct L as (L1 & L2 & L3 & L4). specialize (H L1 L2 S).
  split; [exact L1|]. split; [exact L2|]. split; [exact L3|]. right. split; [reflexivity|].
  unfold prk_of. cs. rewrite L2, H. apply Bool.orb_false_iff in G as [G1 G2]. 
  apply Bool.negb_false_iff, Z.eqb_eq in G1, G2. destruct L4 as [(_ & _ & -> & ->)|(X & _)]; [|rewrite X in G2; discriminate].
  unfold prk_out. rewrite <- L3. reflexivity.
Qed.
Lemma kdf_kp : forall a b d cx k n, kp cx -> kp k -> kp (kdf a b d cx k n).
Proof. intros a b d cx k n H1 H2. unfold kdf. kp_auto. Qed.
Lemma prk_exporter_kp : forall n, kp (compute_prk_exporter n).
Proof. intros n. unfold compute_prk_exporter. kp_auto. apply kdf_kp; auto with kp. Qed.
Hint Resolve prk_exporter_kp : kp.
Lemma export_lv : forall nn label n, lv (export_prk_exporter nn label n).
Proof.
  intros nn label n. unfold export_prk_exporter.
  destruct (_ || _); [apply kp_lv; kp_auto|]. destruct (negb _); [apply kp_lv; kp_auto|].
  apply bind_lv; [apply kp_lv; kp_auto|intro c]. destruct (_ || _); [apply kp_lv; kp_auto|].
  apply bind_lv; [apply kp_lv; kp_auto|intro s']. 
  apply bind_lv; [destruct (_ =? _); [apply prk_out_lv|apply kp_lv; kp_auto]|intro r]. apply kp_lv. kp_auto.
Qed.
Lemma oscore_lv : forall nn a b d e, lv (export_oscore_session nn a b d e).
Proof.
  intros nn a b d e. unfold export_oscore_session.
  destruct (_ || _); [apply kp_lv; kp_auto|]. apply bind_lv; [apply kp_lv; kp_auto|intro c].
  destruct (negb _); [apply kp_lv; kp_auto|]. destruct (_ || _); [apply kp_lv; kp_auto|].
  apply bind_lv; [apply kp_lv; kp_auto|intros _]. apply bind_lv; [apply export_lv|intros [r sec]].
  destruct (negb _); [apply kp_lv; kp_auto|]. apply bind_lv; [apply export_lv|intros [r2 salt]]. apply kp_lv. kp_auto.
Qed.
Lemma key_update_step : forall nn en w r w', export_key_update nn en w = Ret r w' ->
  exists t, w_tr w' = t ++ w_tr w /\ (sound p t -> forall po, inv po (w_ctx w) ->
    inv (if r =? OK then update p (cs_hash s) po en else po) (w_ctx w')).
Proof.
  intros nn en [c t] r w' R. unfold export_key_update in R.
  destruct (_ || _). { injection R as <- <-. exists []. split; [reflexivity|auto]. }
  apply bind_inv in R as (c0 & w1 & R1 & R). injection R1 as <- <-. cs in R.
  destruct (_ || _). { injection R as <- <-. exists []. split; [reflexivity|auto]. }
  apply bind_inv in R as (u & w1 & R1 & R). injection R1 as <- <-. cs in R.
  apply bind_inv in R as (r1 & w1 & R1 & R).
  assert (X : lv (if c_prk_state c =? PRK_4E3M then compute_prk_out else ret OK))
    by (destruct (_ =? _); [apply prk_out_lv|apply kp_lv; kp_auto]).
  destruct (X _ _ _ R1) as (t1 & T1 & L1). cs in T1. cs in L1.
  destruct (r1 =? OK); cbn [negb] in R.
  2:{ injection R as <- <-. exists t1. split; [exact T1|]. intros S po L. apply L1; [exact S|]. eapply alive_core; [|exact L]. reflexivity. }
  apply bind_inv in R as (r2 & w2 & R2 & R). destruct w1 as [c1 t1']. cs in T1. subst t1'. 
  assert (Y : exists t2, w_tr w2 = t2 ++ t1 ++ t /\ (sound p t2 -> forall po, inv po c1 ->
            (r2 <> OK /\ inv po (w_ctx w2)) \/ (r2 = OK /\ inv (update p (cs_hash s) po en) (w_ctx w2)))).
  { clear R L1 X R1. revert R2. apply sat_run with (U := Any) (Q := fun r2 w2 => exists t2, w_tr w2 = t2 ++ t1 ++ t /\ (sound p t2 -> forall po, inv po c1 ->
            (r2 <> OK /\ inv po (w_ctx w2)) \/ (r2 = OK /\ inv (update p (cs_hash s) po en) (w_ctx w2)))).
    unfold compute_new_prk_out. apply sat_bind, sat_getc. cs. destruct (negb (c_prk_state c1 =? PRK_OUT)) eqn:G.
    { apply sat_ret. exists []. split; [reflexivity|]. left. split; [discriminate|assumption]. }
    apply sat_bind, sy_get_suite. intros _. cs. eapply sat_conseq; [apply all_kdf_into_prk, reads_ret|].
    intros r' w2' (t' & T & H). exists t'. split; [exact T|]. intros S po L.
    destruct H as [[N ->]|[H|[-> (q & -> & H)]]]; [left; auto|destruct S as (_ & S & _); contradiction|].
    destruct L as (A1 & A2 & A3 & A4). specialize (H A1 A2 S). right. split; [reflexivity|].
    split; [exact A1|]. split; [exact A2|]. split; [exact A3|]. right. split; [reflexivity|]. unfold prk_of. cs. rewrite A2, H.
    apply Bool.negb_false_iff, Z.eqb_eq in G. destruct A4 as [(Z1 & _)|(_ & ->)]; [rewrite Z1 in G; discriminate|reflexivity]. }
  destruct Y as (t2 & T2 & Y). 
  assert (Z0 : w_tr w' = w_tr w2 /\ core (w_ctx w') = core (w_ctx w2) /\ (r = OK <-> r2 = OK)).
  { destruct (r2 =? OK) eqn:Er2; cbn [negb] in R.
    - apply bind_inv in R as (u' & w3 & R3 & R). injection R3 as <- <-. injection R as <- <-. apply Z.eqb_eq in Er2. now repeat split.
    - injection R as <- <-. apply Z.eqb_neq in Er2. repeat split; intros; [discriminate|contradiction]. }
  destruct Z0 as (Z1 & Z2 & Z3). exists (t2 ++ t1). split; [now rewrite Z1, T2, app_assoc|]. 
  intros S po L. apply sound_app in S as [S2 S1]. eapply alive_core; [exact Z2|].
  destruct (Y S2 po) as [[N Y1]|[N Y1]]; [apply L1; [exact S1|]; eapply alive_core; [|exact L]; reflexivity| |].
  - destruct (r =? OK) eqn:Er; [|exact Y1]. apply Z.eqb_eq, Z3 in Er. contradiction.
  - apply Z3 in N. subst r. exact Y1.
Qed.
End Alive.

(** ** The handshake stays over *)
Definition over (c : ctx) : Prop := c_status c = SM_ABORTED \/ SM_COMPLETED <= c_status c.
Create HintDb dn.
Section Over.
Context {E : env}.
Definition dn {A} (m : M A) : Prop := forall w, over (w_ctx w) -> sat Any m w (fun _ w' => over (w_ctx w')).
Lemma ret_dn : forall A (a : A), dn (ret a). Proof. intros A a w H. now apply sat_ret. Qed.
Lemma bind_dn : forall A B (m : M A) (k : A -> M B), dn m -> (forall a, dn (k a)) -> dn (bind m k).
Proof.
  intros A B m k Hm Hk w H. apply sat_bind. eapply sat_conseq; [now apply Hm|]. intros a w1 H1. now apply Hk.
Qed.
Lemma getc_dn : forall B (k : ctx -> M B), (forall c, over c -> dn (k c)) -> dn (bind getc k).
Proof. intros B k Hk w H. apply sat_bind, sat_getc. now apply Hk. Qed.
Lemma check_dn : forall b u, dn (check b u). Proof. intros b u w H. now apply sy_check. Qed.
Lemma need_dn : forall A (o : option A) u, dn (need o u). Proof. intros A o u w H. now apply sy_need. Qed.
Lemma fault_dn : forall A u, dn (@fault A u). Proof. intros A u w H. now apply sat_fault. Qed.
Lemma modify_dn : forall f, (forall c, over c -> over (f c)) -> dn (modify f).
Proof. intros f H w Hw. apply sat_modify. now apply H. Qed.
Lemma alloc_dn : forall a b, dn (alloc a b). Proof. intros a b w H. now apply sy_alloc. Qed.
Lemma free_dn : forall a, dn (free a). Proof. intros a w H. now apply sy_free. Qed.
Lemma import_dn : forall a b, dn (call_import a b). Proof. intros a b w H. now apply sy_import. Qed.
Lemma destroy_dn : forall a, dn (call_destroy a). Proof. intros a w H. now apply sy_destroy. Qed.
Lemma expand_dn : forall a b c, dn (call_expand a b c). Proof. intros a b c w H. now apply sy_expand. Qed.
Lemma encrypt_dn : forall a b c d e, dn (call_encrypt a b c d e). Proof. intros a b c d e w H. now apply sy_encrypt. Qed.
Lemma decrypt_dn : forall a b c d e, dn (call_decrypt a b c d e). Proof. intros a b c d e w H. now apply sy_decrypt. Qed.
Lemma compose_dn : forall a b c, dn (call_compose a b c). Proof. intros a b c w H. now apply sy_compose. Qed.
Lemma process_dn : forall a b c, dn (call_process a b c). Proof. intros a b c w H. now apply sy_process. Qed.
Lemma suite_dn : dn get_suite. Proof. intros w H. now apply sy_get_suite. Qed.
Lemma th_dn : dn get_th. Proof. intros w H. now apply sy_get_th. Qed.
Lemma prk_dn : dn get_prk. Proof. intros w H. now apply sy_get_prk. Qed.
Lemma put_prk_dn : forall o, dn (put_prk o). Proof. intros o w H. now apply sy_put_prk. Qed.
End Over.
#[export] Hint Resolve ret_dn check_dn need_dn fault_dn alloc_dn free_dn import_dn destroy_dn expand_dn
  encrypt_dn decrypt_dn compose_dn process_dn suite_dn th_dn prk_dn put_prk_dn : dn.
Ltac over_tac :=
  apply modify_dn; intros ? ?; first [ assumption | left; reflexivity | right; discriminate ].
Ltac dn_step :=
  lazymatch goal with
  | |- dn (bind getc _) => apply getc_dn; intros ? ?
  | |- dn (bind _ _) => apply bind_dn; [|intro]
  | |- dn (if ?b then _ else _) => destruct b
  | |- dn (match ?x with _ => _ end) => destruct x
  | |- dn (let _ := _ in _) => cbv zeta
  | |- dn (modify _) => over_tac
  | |- dn _ => solve [auto 2 with dn nocore]
  end.
Ltac dn_auto := repeat dn_step.
Section Over4.
Context {E : env}.
Lemma frees_dn : forall l, dn (frees l). Proof. induction l; cbn [frees]; dn_auto. Qed.
Hint Resolve frees_dn : dn.
Lemma fail_dn : forall l r, dn (fail l r). Proof. intros. unfold fail. dn_auto. Qed.
Lemma failp_dn : forall l r, dn (failp l r). Proof. intros. unfold failp. dn_auto. Qed.
Lemma rd_tok_dn : forall a b, dn (rd_tok a b). Proof. intros. unfold rd_tok. dn_auto. Qed.
Hint Resolve fail_dn failp_dn rd_tok_dn : dn.
Lemma read_toks_dn : forall p l, dn (read_toks p l). Proof. induction l; cbn [read_toks]; dn_auto. Qed.
Hint Resolve read_toks_dn : dn.
Lemma encode_tokens_dn : forall p n l, dn (encode_tokens p n l). Proof. intros. unfold encode_tokens. dn_auto. Qed.
Lemma ead_compose_dn : dn ead_compose. Proof. unfold ead_compose. dn_auto. Qed.
Lemma ead_process_dn : dn ead_process. Proof. unfold ead_process. dn_auto. Qed.
Lemma enter_dn : forall m r, dn (enter m r). Proof. intros. unfold enter. dn_auto. Qed.
Lemma expand_part_dn : forall a b c, dn (expand_part a b c). Proof. intros. unfold expand_part. dn_auto. Qed.
Hint Resolve encode_tokens_dn ead_compose_dn ead_process_dn enter_dn expand_part_dn : dn.
Lemma key_iv_aad_dn : forall a b c, dn (key_iv_aad a b c). Proof. intros. unfold key_iv_aad. dn_auto. Qed.
Hint Resolve key_iv_aad_dn : dn.
Lemma keys_4_dn : forall a b c, dn (compute_key_iv_aad_4 a b c). Proof. intros. unfold compute_key_iv_aad_4. dn_auto. Qed.
Lemma encrypt_4_dn : forall a b c d e, dn (aead_encrypt a b c d e). Proof. intros. unfold aead_encrypt. dn_auto. Qed.
Lemma decrypt_4_dn : forall a b c d e, dn (aead_decrypt a b c d e). Proof. intros. unfold aead_decrypt. dn_auto. Qed.
Lemma plaintext_4_dn : forall n, dn (prepare_plaintext_4 n). Proof. intros. unfold prepare_plaintext_4. dn_auto. Qed.
Hint Resolve keys_4_dn encrypt_4_dn decrypt_4_dn plaintext_4_dn : dn.
Lemma compose_4_dn : forall nn n, dn (message_4_compose nn n). Proof. intros. unfold message_4_compose. dn_auto. Qed.
Lemma process_4_dn : forall nn n, dn (message_4_process nn n). Proof. intros. unfold message_4_process. dn_auto. Qed.
Lemma kdf_dn : forall a b d cx k n, dn cx -> dn k -> dn (kdf a b d cx k n).
Proof. intros a b d cx k n H1 H2. unfold kdf. dn_auto. Qed.
Lemma kdf_into_prk_dn : forall a b cx, dn cx -> dn (kdf_into_prk a b cx).
Proof. intros a b cx H1. unfold kdf_into_prk. dn_auto. Qed.
Lemma prk_out_dn : dn compute_prk_out.
Proof. unfold compute_prk_out. dn_auto. apply kdf_into_prk_dn. auto with dn. Qed.
Lemma new_prk_out_dn : forall e, dn (compute_new_prk_out e).
Proof. intro. unfold compute_new_prk_out. dn_auto. apply kdf_into_prk_dn. auto with dn. Qed.
Lemma prk_exporter_dn : forall n, dn (compute_prk_exporter n).
Proof. intro. unfold compute_prk_exporter. dn_auto. apply kdf_dn; auto with dn. Qed.
Hint Resolve prk_out_dn new_prk_out_dn prk_exporter_dn : dn.
Lemma export_dn : forall nn l n, dn (export_prk_exporter nn l n). Proof. intros. unfold export_prk_exporter. dn_auto. Qed.
Hint Resolve export_dn : dn.
Lemma key_update_dn : forall nn e, dn (export_key_update nn e). Proof. intros. unfold export_key_update. dn_auto. Qed.
Lemma oscore_dn : forall nn a b c d, dn (export_oscore_session nn a b c d). Proof. intros. unfold export_oscore_session. dn_auto. Qed.
End Over4.

(** ** One call, and a history *)
Section Hist.
Context {E : env}.
Variable p : primitives.
Variable s : csuite.
Variables th4 prk4 : bytes.
Hypothesis Hs : 0 <= cs_hash s < 2 ^ 32.
Notation inv po := (alive p s th4 prk4 po).
Notation hl := (cs_hash s).
(** What a call with PRK_out [po] may hand out. *)
Definition hands (po : bytes) (own peer : conn_id) (r : result) : Prop :=
  (forall label n sec, export_of r label n sec -> 0 <= n < 2 ^ 32 -> sec = exporter p hl po label n) /\
  (forall n1 n2 sec salt sid rid, oscore_of r n1 n2 sec salt sid rid -> 0 <= n1 < 2 ^ 32 -> 0 <= n2 < 2 ^ 32 ->
     sec = exporter p hl po 0 n1 /\ salt = exporter p hl po 1 n2 /\
     sid = oscore_bytes (cid_rfc peer) /\ rid = oscore_bytes (cid_rfc own)).
Lemma alive_bounds : forall po c, inv po c -> 0 <= cs_hash (the_suite c) < 2 ^ 32 /\ c_prk_len c = cs_hash (the_suite c) /\
  0 <= c_prk_state c <= PRK_OUT.
Proof.
  intros po c (A & B & C & D). rewrite A. split; [exact Hs|]. split; [exact B|].
  destruct D as [(-> & _)|(-> & _)]; unfold PRK_4E3M, PRK_OUT; lia.
Qed.
Lemma alive_prk_out : forall po po' c t, sound p t -> inv po c -> prk_out_of c t po' -> po' = po.
Proof.
  intros po po' c t S (A & B & C & D) H. unfold prk_out_of in H. destruct D as [(D1 & D2 & D3 & D4)|(D1 & D2)]; rewrite D1 in H.
  - change (PRK_4E3M =? PRK_OUT) with false in H. destruct H as (_ & _ & H). rewrite (sound_expanded _ _ _ _ _ _ S H), D4, A, D3, C. reflexivity.
  - rewrite Z.eqb_refl in H. congruence.
Qed.
Lemma alive_exported : forall t po label n out, sound p t -> exported t s po label n out -> out = exporter p hl po label n.
Proof.
  intros t po label n out S (pe & A & B). apply (sound_expanded _ _ _ _ _ _ S) in A, B. subst. reflexivity.
Qed.
Lemma export_hands : forall nn label n w r b w', export_prk_exporter nn label n w = Ret (r, b) w' ->
  forall t, w_tr w' = t ++ w_tr w -> sound p t -> forall po, inv po (w_ctx w) -> r = OK -> 0 <= n < 2 ^ 32 -> b = exporter p hl po label n.
Proof.
  intros nn label n [c t0] r b w' R t T S po L Er Hn. cs in T. cs in L. destruct (alive_bounds _ _ L) as (B1 & B2 & B3).
  destruct (sat_run _ _ _ _ _ _ _ (run_export nn label n c t0 B1 B2 Hn B3) R Er) as (_ & t' & po' & T' & _ & PO & X).
  rewrite T in T'. apply app_inv_tail in T'. subst t'. destruct X as (_ & X & _); [apply S|].
  rewrite (alive_prk_out _ _ _ _ S L PO) in X. destruct L as (L1 & _). rewrite L1 in X. exact (alive_exported _ _ _ _ _ S X).
Qed.
Lemma oscore_hands : forall nn n1 n2 n3 n4 w r o w', export_oscore_session nn n1 n2 n3 n4 w = Ret (r, o) w' ->
  forall t, w_tr w' = t ++ w_tr w -> sound p t -> forall po, inv po (w_ctx w) -> r = OK -> 0 <= n1 < 2 ^ 32 -> 0 <= n2 < 2 ^ 32 ->
  os_secret o = exporter p hl po 0 n1 /\ os_salt o = exporter p hl po 1 n2 /\
  os_sid o = oscore_bytes (cid_rfc (c_peer_cid (w_ctx w))) /\ os_rid o = oscore_bytes (cid_rfc (c_cid (w_ctx w))).
Proof.
  intros nn n1 n2 n3 n4 [c t0] r o w' R t T S po L Er Hn1 Hn2. cs in T. cs in L. destruct (alive_bounds _ _ L) as (B1 & B2 & B3).
  destruct (sat_run _ _ _ _ _ _ _ (run_oscore nn n1 n2 n3 n4 c t0 B1 B2 Hn1 Hn2 B3) R Er) as (_ & _ & t' & po' & q & -> & PO & I1 & I2 & X).
  cs in T. apply app_inv_tail in T. subst t'. destruct X as (_ & X1 & _ & X2 & _); [apply S|].
  rewrite (alive_prk_out _ _ _ _ S L PO) in X1, X2. destruct L as (L1 & _). rewrite L1 in X1, X2.
  split; [exact (alive_exported _ _ _ _ _ S X1)|]. split; [exact (alive_exported _ _ _ _ _ S X2)|]. split; assumption.
Qed.
Lemma core_cids : forall c c', core c' = core c -> c_cid c' = c_cid c /\ c_peer_cid c' = c_peer_cid c.
Proof. intros c c' H. unfold core in H. injection H. auto. Qed.
(** The identifiers never change. *)
Definition ids_kept (w w' : world) : Prop := c_cid (w_ctx w') = c_cid (w_ctx w) /\ c_peer_cid (w_ctx w') = c_peer_cid (w_ctx w).
Definition hk {A} (m : M A) : Prop := forall w, sat Any m w (fun _ w' => ids_kept w w').
Lemma kp_hk : forall A (m : M A), kp m -> hk m.
Proof. intros A m H w. eapply sat_conseq; [apply H|]. intros a w' [_ K]. now apply core_cids. Qed.
Lemma bind_hk : forall A B (m : M A) (k : A -> M B), hk m -> (forall a, hk (k a)) -> hk (bind m k).
Proof.
  intros A B m k Hm Hk w. apply sat_bind. eapply sat_conseq; [apply Hm|]. intros a w1 [H1 H2].
  eapply sat_conseq; [apply Hk|]. intros b w2 [H3 H4]. split; congruence.
Qed.
Lemma put_prk_hk : forall o, hk (put_prk o). Proof. intros o w. apply sy_put_prk. intros _. split; reflexivity. Qed.
Lemma prk_state_hk : forall o, hk (modify (set_prk_state o)). Proof. intros o w. apply sat_modify. split; reflexivity. Qed.
Lemma kdf_into_prk_hk : forall a b cx, kp cx -> hk (kdf_into_prk a b cx).
Proof.
  intros a b cx H. unfold kdf_into_prk. 
  repeat first [ apply put_prk_hk | apply prk_state_hk | solve [apply kp_hk; kp_auto] | lazymatch goal with
  | |- hk (bind _ _) => apply bind_hk; [|intro]
  | |- hk (if ?b then _ else _) => destruct b
  | |- hk (match ?x with _ => _ end) => destruct x end ].
Qed.
Lemma prk_out_hk : hk compute_prk_out.
Proof.
  unfold compute_prk_out. apply bind_hk; [apply kp_hk; kp_auto|intro c]. destruct (_ || _); [apply kp_hk; kp_auto|].
  apply bind_hk; [apply kp_hk; kp_auto|intro]. apply kdf_into_prk_hk. auto with kp.
Qed.
Lemma new_prk_out_hk : forall e, hk (compute_new_prk_out e).
Proof.
  intro e. unfold compute_new_prk_out. apply bind_hk; [apply kp_hk; kp_auto|intro c]. destruct (negb _); [apply kp_hk; kp_auto|].
  apply bind_hk; [apply kp_hk; kp_auto|intro]. apply kdf_into_prk_hk. auto with kp.
Qed.
Ltac hk_auto := repeat first [ apply prk_out_hk | apply new_prk_out_hk | solve [apply kp_hk; kp_auto] | lazymatch goal with
  | |- hk (bind _ _) => apply bind_hk; [|intro]
  | |- hk (let _ := _ in _) => cbv zeta
  | |- hk (if ?b then _ else _) => destruct b
  | |- hk (match ?x with _ => _ end) => destruct x end ].
Lemma export_hk : forall nn l n, hk (export_prk_exporter nn l n).
Proof.
  intros. pose proof prk_exporter_kp. unfold export_prk_exporter. hk_auto. all: apply kp_hk; kp_auto; auto.
Qed.
Lemma key_update_hk : forall nn e, hk (export_key_update nn e).
Proof. intros. unfold export_key_update. hk_auto. Qed.
Lemma oscore_hk : forall nn a b c d, hk (export_oscore_session nn a b c d).
Proof. intros. pose proof export_hk. unfold export_oscore_session. hk_auto. all: auto. Qed.
(** PRK_out after a call. *)
Notation next rs po := (fold_left (update p hl) (entropies rs) po).
Definition step_ok (w : world) (r : result) (w' : world) : Prop :=
  over (w_ctx w') /\ ids_kept w w' /\ exists t, w_tr w' = t ++ w_tr w /\
    (sound p t -> forall po, inv po (w_ctx w) ->
       inv (next [r] po) (w_ctx w') /\ hands po (c_cid (w_ctx w)) (c_peer_cid (w_ctx w)) r).
(** A call that exports nothing. *)
Lemma step_plain : forall a r w w', 
  (forall l n x, ~ export_of (a, r) l n x) -> (forall n1 n2 x y z v, ~ oscore_of (a, r) n1 n2 x y z v) ->
  entropies [((a, r) : result)] = [] -> over (w_ctx w') -> ids_kept w w' ->
  (exists t, w_tr w' = t ++ w_tr w /\ (sound p t -> forall po, inv po (w_ctx w) -> inv po (w_ctx w'))) ->
  step_ok w (a, r) w'.
Proof.
  intros a r w w' N1 N2 EN O I (t & T & H). split; [exact O|]. split; [exact I|]. exists t. split; [exact T|].
  intros S po L. rewrite EN. split; [now apply H|]. split; intros; exfalso; [eapply N1|eapply N2]; eassumption.
Qed.
Lemma step_same : forall a r w, 
  (forall l n x, ~ export_of (a, r) l n x) -> (forall n1 n2 x y z v, ~ oscore_of (a, r) n1 n2 x y z v) ->
  entropies [((a, r) : result)] = [] -> over (w_ctx w) -> step_ok w (a, r) w.
Proof. intros. apply step_plain; try assumption; [split; reflexivity|]. exists []. split; [reflexivity|auto]. Qed.
Lemma over_not : forall k c, over c -> k <> M4c -> k <> M4p -> ~ permitted k c.
Proof.
  intros k c O N1 N2 P. unfold permitted in P. destruct k; try contradiction; cbn [required] in P; injection P as P _ _;
    unfold over in O; rewrite P in O; destruct O as [O|O]; revert O; unfold SM_START, SM_RECEIVED_M1, SM_WAIT_M2, SM_VERIFIED_M2, SM_WAIT_M3, SM_ABORTED, SM_COMPLETED; lia.
Qed.
Ltac noex := let X := fresh in intros; intro X; destruct X as [? X]; first [discriminate X | destruct X as (? & ? & X); discriminate X].
Ltac noex2 := intros; exfalso; match goal with
  | X : export_of _ _ _ _ |- _ => destruct X as [? X]; discriminate X
  | X : oscore_of _ _ _ _ _ _ _ |- _ => destruct X as (? & ? & ? & X); discriminate X end.
Lemma step_refused : forall a k w r w', kind a = Some k -> k <> M4c -> k <> M4p -> over (w_ctx w) ->
  do_api a w = Ret r w' -> step_ok w (a, r) w'.
Proof.
  intros a k w r w' Hk N1 N2 O R. pose proof (over_not k _ O N1 N2) as NP.
  assert (w' = w) as ->.
  { destruct (args_dec a) as [Ha|Ha].
    - destruct (guard_state _ _ _ Hk Ha NP) as [o X]. rewrite X in R. now injection R.
    - destruct (guard_args _ _ w Hk Ha) as [o X]. rewrite X in R. now injection R. }
  apply step_same; [..|assumption]; destruct a; try discriminate Hk; try reflexivity; noex.
Qed.
Lemma step_cfg : forall a f w r w', do_api a = cfg f -> (forall c, core (snd (f c)) = core c /\ (over c -> over (snd (f c)))) -> kind a = None ->
  match a with AExport _ _ _ | AKeyUpdate _ _ | AOscore _ _ _ _ _ => False | _ => True end ->
  over (w_ctx w) -> do_api a w = Ret r w' -> step_ok w (a, r) w'.
Proof.
  intros a f w r w' Ea Hf Hk Na O R. rewrite Ea, cfg_run in R. injection R as <- <-. destruct (Hf (w_ctx w)) as [K1 K2].
  apply step_plain.
  - destruct a; try contradiction; noex.
  - destruct a; try contradiction; noex.
  - destruct a; try contradiction; reflexivity.
  - cs. auto.
  - cs. now apply core_cids.
  - exists []. split; [reflexivity|]. intros _ po L. cs. eapply alive_core; [exact K1|exact L].
Qed.
Ltac cfgcase f := apply (step_cfg _ f); [reflexivity| |reflexivity|exact I|assumption|assumption];
  intro; unfold set_methods_call, set_user_context_call, bind_ead_call, bind_keys_call, bind_crypto_call, bind_credentials_call;
  repeat match goal with
  | |- context [match ?x with _ => _ end] => match x with context [match _ with _ => _ end] => fail 1 | _ => destruct x end
  | |- _ => split; [reflexivity|exact (fun z => z)]
  end.
Lemma live_step : forall a w r w', session_call a = true -> over (w_ctx w) -> do_api a w = Ret r w' -> step_ok w (a, r) w'.
Proof.
  intros a w r w' Hc O R. destruct a; try discriminate Hc; try (eapply step_refused; [reflexivity|discriminate|discriminate|assumption|exact R]).
  - cfgcase (set_methods_call m).
  - cfgcase (set_user_context_call u).
  - cfgcase (bind_ead_call e).
  - cfgcase (bind_keys_call k).
  - cfgcase (bind_crypto_call k).
  - cfgcase (bind_credentials_call k).
  - cbn [do_api] in R. unfold msg_out in R. apply bind_inv in R as ([x y] & w1 & R1 & R). injection R as <- <-.
    apply step_plain; [noex|noex|reflexivity| | |].
    + exact (sat_run _ _ _ _ _ _ _ (compose_4_dn nn size w O) R1).
    + exact (sat_run _ _ _ _ _ _ _ (kp_hk _ _ (compose_4_kp nn size) w) R1).
    + exact (kp_lv p s th4 prk4 _ _ (compose_4_kp nn size) _ _ _ R1).
  - cbn [do_api] in R. unfold no_out in R. apply bind_inv in R as (x & w1 & R1 & R). injection R as <- <-.
    apply step_plain; [noex|noex|reflexivity| | |].
    + exact (sat_run _ _ _ _ _ _ _ (process_4_dn nn msg w O) R1).
    + exact (sat_run _ _ _ _ _ _ _ (kp_hk _ _ (process_4_kp nn msg) w) R1).
    + exact (kp_lv p s th4 prk4 _ _ (process_4_kp nn msg) _ _ _ R1).
  - cbn [do_api] in R. unfold msg_out in R. apply bind_inv in R as ([x y] & w1 & R1 & R). injection R as <- <-.
    split; [exact (sat_run _ _ _ _ _ _ _ (export_dn nn label n w O) R1)|].
    split; [exact (sat_run _ _ _ _ _ _ _ (export_hk nn label n w) R1)|].
    destruct (export_lv p s th4 prk4 Hs nn label n _ _ _ R1) as (t & T & L). exists t. split; [exact T|].
    intros S po I. split; [now apply L|]. split; [|noex2].
    intros lb m sec [nn' X] Hm. injection X as <- <- <- -> ->. exact (export_hands _ _ _ _ _ _ _ R1 _ T S po I eq_refl Hm).
  - cbn [do_api] in R. unfold no_out in R. apply bind_inv in R as (x & w1 & R1 & R). injection R as <- <-.
    split; [exact (sat_run _ _ _ _ _ _ _ (key_update_dn nn entropy w O) R1)|].
    split; [exact (sat_run _ _ _ _ _ _ _ (key_update_hk nn entropy w) R1)|].
    destruct (key_update_step p s th4 prk4 Hs nn entropy _ _ _ R1) as (t & T & L). exists t. split; [exact T|].
    intros S po I. split; [|split; noex2]. specialize (L S po I). cbn [entropies flat_map rcall rval fst snd app]. destruct (x =? OK); exact L.
  - cbn [do_api] in R. apply bind_inv in R as ([x y] & w1 & R1 & R). injection R as <- <-.
    split; [exact (sat_run _ _ _ _ _ _ _ (oscore_dn nn n_sec n_salt n_sid n_rid w O) R1)|].
    split; [exact (sat_run _ _ _ _ _ _ _ (oscore_hk nn n_sec n_salt n_sid n_rid w) R1)|].
    destruct (oscore_lv p s th4 prk4 Hs nn n_sec n_salt n_sid n_rid _ _ _ R1) as (t & T & L). exists t. split; [exact T|].
    intros S po I. split; [now apply L|]. split; [noex2|].
    intros n1 n2 sec salt sid rid (nn' & a & b & X) H1 H2. injection X as <- <- <- <- <- -> ->.
    exact (oscore_hands _ _ _ _ _ _ _ _ _ R1 _ T S po I eq_refl H1 H2).
  - cbn [do_api] in R. unfold bind, getc in R. destruct (error_get_code nn (w_ctx w)) as [x y]. injection R as <- <-.
    apply step_same; [noex|noex|reflexivity|exact O].
  - cbn [do_api] in R. unfold bind, getc in R. destruct (error_get_cipher_suites nn size peer_size (w_ctx w)) as [[x y] z]. injection R as <- <-.
    apply step_same; [noex|noex|reflexivity|exact O].
Qed.
Lemma next_app : forall rs1 rs2 po, next (rs1 ++ rs2) po = next rs2 (next rs1 po).
Proof. intros. unfold entropies. rewrite flat_map_app. apply fold_left_app. Qed.
Lemma live_runs : forall l w rs w', Forall (fun a => session_call a = true) l -> over (w_ctx w) -> runs l w = Ret rs w' ->
  over (w_ctx w') /\ ids_kept w w' /\ exists t, w_tr w' = t ++ w_tr w /\ (sound p t -> forall po, inv po (w_ctx w) ->
    inv (next rs po) (w_ctx w') /\
    (forall rs1 r rs2, rs = rs1 ++ r :: rs2 -> hands (next rs1 po) (c_cid (w_ctx w)) (c_peer_cid (w_ctx w)) r)).
Proof.
  induction l as [|a l IH]; intros w rs w' Hl O R.
  - apply runs_nil in R as [-> ->]. split; [exact O|]. split; [split; reflexivity|]. exists []. split; [reflexivity|]. intros _ po I. split; [exact I|].
    intros [|? ?] r rs2 X; discriminate X.
  - inversion Hl as [|? ? Ha Hl']; subst. apply runs_cons in R as (r & w1 & rs' & R1 & R2 & ->).
    destruct (live_step _ _ _ _ Ha O R1) as (O1 & [I1 I1'] & t1 & T1 & L1).
    destruct (IH _ _ _ Hl' O1 R2) as (O2 & [I2 I2'] & t2 & T2 & L2). split; [exact O2|]. split; [split; congruence|].
    exists (t2 ++ t1). split; [now rewrite T2, T1, app_assoc|]. intros S po I. apply sound_app in S as [S2 S1].
    destruct (L1 S1 po I) as [J1 H1]. destruct (L2 S2 _ J1) as [J2 H2]. 
    split.
    + change ((a, r) :: rs') with ([((a, r) : result)] ++ rs'). rewrite next_app. exact J2.
    + intros [|r0 rs1] r1 rs2 X; injection X as <- X; [exact H1|].
      change ((a, r) :: rs1) with ([((a, r) : result)] ++ rs1). rewrite next_app, <- I1, <- I1'. now apply (H2 rs1 r1 rs2).
Qed.
End Hist.
