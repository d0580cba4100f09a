(** EAD items of earlier messages do not linger: in a live session the token list is empty
    between calls.  No code of /repo is modelled here. *)
From Verif Require Import Monad Api Common Msg1 Msg2 Msg3 Msg4 Exporter History Spec InUse Facts Logic Frame Calls
  Rfc Uses Conform Wire Received Sessions ConfigProofs HistoryProofs SessionProofs Claims2 Claims3.

(** [m] leaves the token list as it is. *)
Definition tk {A} (m : M A) : Prop :=
  forall w, match m w with Ret _ w' => c_tokens (w_ctx w') = c_tokens (w_ctx w) | Ub _ => True end.
Lemma bind_tk : forall A B (m : M A) (k : A -> M B), tk m -> (forall a, tk (k a)) -> tk (bind m k).
Proof.
  intros A B m k H1 H2 w. specialize (H1 w). unfold bind. destruct (m w) as [a w1|]; [|exact I].
  specialize (H2 a w1). destruct (k a w1) as [b w2|]; [|exact I]. congruence.
Qed.
Lemma ret_tk : forall A (a : A), tk (ret a). Proof. intros A a w. reflexivity. Qed.
Lemma getc_tk : tk getc. Proof. intro w. reflexivity. Qed.
Lemma trace_tk : tk trace. Proof. intro w. reflexivity. Qed.
Lemma fault_tk : forall A u, tk (@fault A u). Proof. intros A u w. exact I. Qed.
Lemma check_tk : forall b u, tk (check b u). Proof. intros [] u w; [reflexivity|exact I]. Qed.
Lemma need_tk : forall A (o : option A) u, tk (need o u). Proof. intros A [a|] u w; [reflexivity|exact I]. Qed.
Lemma emit_tk : forall e, tk (emit e). Proof. intros e w. reflexivity. Qed.
Lemma modify_tk : forall f, (forall c, c_tokens (f c) = c_tokens c) -> tk (modify f).
Proof. intros f H w. cbn. apply H. Qed.
Create HintDb tkd discriminated.
#[export] Hint Constants Opaque : tkd.
#[export] Hint Transparent bytes M : tkd.
#[export] Hint Resolve ret_tk getc_tk trace_tk fault_tk check_tk need_tk emit_tk : tkd.
#[export] Hint Extern 1 (tk (modify _)) => (apply modify_tk; reflexivity) : tkd.
Ltac tk_step :=
  lazymatch goal with
  | |- tk (bind _ _) => apply bind_tk; [|intro]
  | |- tk (if ?b then _ else _) => split_bool b
  | |- tk (match ?x with _ => _ end) => destruct x
  | |- tk (let _ := _ in _) => cbv zeta
  | |- tk ((fun _ => _) _) => cbv beta
  | |- tk _ => solve [auto 2 with tkd nocore]
  end.
Ltac tk_auto := repeat tk_step.

(** [m] with success ends with no tokens. *)
Definition clr {A} (ok : A -> Z) (m : M A) : Prop :=
  forall w, match m w with Ret r w' => ok r = OK -> c_tokens (w_ctx w') = [] | Ub _ => True end.
Lemma bind_clr : forall A B ok (m : M A) (k : A -> M B), (forall a, clr ok (k a)) -> clr ok (bind m k).
Proof. intros A B ok m k H w. unfold bind. destruct (m w) as [a w1|]; [|exact I]. exact (H a w1). Qed.
Lemma ret_clr : forall A ok (a : A), ok a <> OK -> clr ok (ret a). Proof. intros A ok a H w. cbn. congruence. Qed.
Lemma end_clr : forall A ok (a : A) f, (forall c, c_tokens (f c) = []) -> clr ok (modify f ;;; ret a).
Proof. intros A ok a f H w. cbn. auto. Qed.
Lemma fail_clr : forall l r, r <> OK -> clr fst (fail l r).
Proof. intros l r H. unfold fail. apply bind_clr. intros _. now apply ret_clr. Qed.
Lemma failp_clr : forall l r, r <> OK -> clr (fun z => z) (failp l r).
Proof. intros l r H. unfold failp. apply bind_clr. intros _. now apply ret_clr. Qed.
Ltac not_ok := cbn [fst]; first [discriminate | apply Z.eqb_neq; assumption | assumption].
Ltac clr_step :=
  lazymatch goal with
  | |- clr _ (modify _ ;;; ret _) => first [apply end_clr; reflexivity | apply bind_clr; intros _]
  | |- clr _ (bind _ _) => apply bind_clr; intro
  | |- clr _ (if ?b then _ else _) => let H := fresh "B" in destruct b eqn:H
  | |- clr _ (match ?x with _ => _ end) => destruct x
  | |- clr _ (let _ := _ in _) => cbv zeta
  | |- clr _ ((fun _ => _) _) => cbv beta
  | |- clr _ (ret _) => apply ret_clr
  | |- clr _ (fail _ _) => apply fail_clr
  | |- clr _ (failp _ _) => apply failp_clr
  end.
Ltac clr_end := cbn [fst]; first [discriminate | match goal with H : negb (?r =? OK) = true |- ?r <> OK => apply negb_true_iff, Z.eqb_neq in H; exact H end].

Section Clean.
Context {E : env}.
Lemma clr_1c : forall nn n, clr fst (message_1_compose nn n).
Proof. intros. unfold message_1_compose. repeat clr_step; clr_end. Qed.
Lemma clr_2c : forall nn n, clr fst (message_2_compose nn n).
Proof. intros. unfold message_2_compose. repeat clr_step; clr_end. Qed.
Lemma clr_2p : forall nn m, clr (fun z => z) (message_2_process nn m).
Proof. intros. unfold message_2_process. repeat clr_step; clr_end. Qed.
Lemma clr_3c : forall nn n, clr fst (message_3_compose nn n).
Proof. intros. unfold message_3_compose. repeat clr_step; clr_end. Qed.
Lemma clr_3p : forall nn m, clr (fun z => z) (message_3_process nn m).
Proof. intros. unfold message_3_process. repeat clr_step; clr_end. Qed.
Lemma clr_4c : forall nn n, clr fst (message_4_compose nn n).
Proof. intros. unfold message_4_compose. repeat clr_step; clr_end. Qed.
Lemma clr_4p : forall nn m, clr (fun z => z) (message_4_process nn m).
Proof. intros. unfold message_4_process. repeat clr_step; clr_end. Qed.

Lemma alloc_tk : forall b n, tk (alloc b n). Proof. intros. unfold alloc. tk_auto. Qed.
Lemma free_tk : forall b, tk (free b). Proof. intros. unfold free. tk_auto. Qed.
Lemma import_tk : forall a b, tk (call_import a b). Proof. intros. unfold call_import. tk_auto. Qed.
Lemma destroy_tk : forall a, tk (call_destroy a). Proof. intros. unfold call_destroy. tk_auto. Qed.
Lemma expand_tk : forall a b c, tk (call_expand a b c). Proof. intros. unfold call_expand, out_ok. tk_auto. Qed.
Lemma hash_tk : forall a b, tk (call_hash a b). Proof. intros. unfold call_hash, out_ok. tk_auto. Qed.
Lemma rd_ptr_tk : forall a b, tk (rd_ptr a b). Proof. intros. unfold rd_ptr. tk_auto. Qed.
Lemma get_suite_tk : tk get_suite. Proof. unfold get_suite. tk_auto. Qed.
Hint Resolve alloc_tk free_tk import_tk destroy_tk expand_tk hash_tk rd_ptr_tk get_suite_tk : tkd.
Lemma put_th_tk : forall b, tk (put_th b). Proof. intros. unfold put_th, wr. tk_auto. Qed.
Lemma put_prk_tk : forall b, tk (put_prk b). Proof. intros. unfold put_prk, wr. tk_auto. Qed.
Lemma put_dh_peer_tk : forall b, tk (put_dh_peer b). Proof. intros. unfold put_dh_peer, wr. tk_auto. Qed.
Lemma get_th_tk : tk get_th. Proof. unfold get_th, rd. tk_auto. Qed.
Lemma get_prk_tk : tk get_prk. Proof. unfold get_prk, rd. tk_auto. Qed.
Hint Resolve put_th_tk put_prk_tk put_dh_peer_tk get_th_tk get_prk_tk : tkd.
Lemma hash_into_th_tk : forall n b, tk (hash_into_th n b). Proof. intros. unfold hash_into_th. tk_auto. Qed.
Hint Resolve hash_into_th_tk : tkd.
Lemma kdf_tk : forall a b c d e n, tk d -> tk e -> tk (kdf a b c d e n). Proof. intros. unfold kdf. tk_auto. Qed.
Lemma into_prk_tk : forall a b d, tk d -> tk (kdf_into_prk a b d). Proof. intros. unfold kdf_into_prk. tk_auto. Qed.
Hint Resolve kdf_tk into_prk_tk : tkd.
Lemma prk_out_tk : tk compute_prk_out. Proof. unfold compute_prk_out. tk_auto. Qed.
Lemma new_prk_tk : forall b, tk (compute_new_prk_out b). Proof. intros. unfold compute_new_prk_out. tk_auto. Qed.
Lemma prk_exp_tk : forall b, tk (compute_prk_exporter b). Proof. intros. unfold compute_prk_exporter. tk_auto. Qed.
Hint Resolve prk_out_tk new_prk_tk prk_exp_tk : tkd.
Lemma export_tk : forall a b c, tk (export_prk_exporter a b c). Proof. intros. unfold export_prk_exporter. tk_auto. Qed.
Hint Resolve export_tk : tkd.
Lemma update_tk : forall a b, tk (export_key_update a b). Proof. intros. unfold export_key_update. tk_auto. Qed.
Lemma oscore_tk : forall a b c d e, tk (export_oscore_session a b c d e). Proof. intros. unfold export_oscore_session. tk_auto. Qed.
Hint Resolve update_tk oscore_tk : tkd.

(** Message 1 received: the list is filled only for the callback. *)
Definition stays {A} (m : M A) : Prop :=
  forall w, match m w with Ret _ w' => c_tokens (w_ctx w) = [] -> c_tokens (w_ctx w') = [] | Ub _ => True end.
Lemma bind_stays : forall A B (m : M A) (k : A -> M B), stays m -> (forall a, stays (k a)) -> stays (bind m k).
Proof.
  intros A B m k H1 H2 w. specialize (H1 w). unfold bind. destruct (m w) as [a w1|]; [|exact I].
  specialize (H2 a w1). destruct (k a w1) as [b w2|]; [|exact I]. auto.
Qed.
Lemma tk_stays : forall A (m : M A), tk m -> stays m.
Proof. intros A m H w. specialize (H w). destruct (m w); [|exact I]. congruence. Qed.
Lemma ead_stays : forall l (f : Z -> list token -> M Z),
  stays (modify (set_tokens l) ;;; (r <- f MSG_1 l ;; modify (set_tokens []) ;;; if negb (r =? OK) then ret E_EAD_PROCESS else ret OK)).
Proof.
  intros l f w. unfold bind, modify. destruct (f MSG_1 l _) as [r w1|]; [|exact I]. destruct (negb _); cbn; auto.
Qed.
Lemma stays_1p : forall nn m, stays (message_1_process nn m).
Proof.
  intros. unfold message_1_process, enter.
  repeat lazymatch goal with
  | |- stays (modify (set_tokens _) ;;; _) => apply (ead_stays _ (fun a b => call_process _ a b))
  | |- stays (bind _ _) => apply bind_stays; [|intro]
  | |- stays (if ?b then _ else _) => destruct b
  | |- stays (match ?x with _ => _ end) => destruct x
  | |- stays (let _ := _ in _) => cbv zeta
  | |- stays ((fun _ => _) _) => cbv beta
  | |- stays _ => apply tk_stays; solve [tk_auto]
  end.
Qed.

(** ** Histories *)
Definition clean (w : world) : Prop := c_status (w_ctx w) = SM_ABORTED \/ c_tokens (w_ctx w) = [].
Ltac cfg_split := repeat match goal with |- context [if ?b then _ else _] => destruct b | |- context [match ?x with _ => _ end] => is_var x; destruct x end.
Lemma other_tokens : forall a w r w', kind a = None -> a <> AInit -> a <> ADeinit -> do_api a w = Ret r w' ->
  c_tokens (w_ctx w') = c_tokens (w_ctx w).
Proof.
  intros a w r w' K N1 N2 H. assert (T : tk (do_api a)).
  { clear - K N1 N2. destruct a; try discriminate K; try congruence; cbn [do_api].
    1-8: intro w; rewrite cfg_run; cbn [w_ctx].
    - unfold set_methods_call. cfg_split; reflexivity.
    - unfold set_cipher_suites_call. cfg_split; reflexivity.
    - unfold set_connection_id_call. cfg_split; reflexivity.
    - unfold set_user_context_call. cfg_split; reflexivity.
    - unfold bind_ead_call. cfg_split; reflexivity.
    - unfold bind_keys_call. cfg_split; reflexivity.
    - unfold bind_crypto_call. cfg_split; reflexivity.
    - unfold bind_credentials_call. cfg_split; reflexivity.
    - unfold msg_out. tk_auto.
    - unfold no_out. tk_auto.
    - tk_auto.
    - tk_auto.
    - tk_auto. }
  specialize (T w). now rewrite H in T.
Qed.
Lemma ok_tokens : forall a k w r w', kind a = Some k -> do_api a w = Ret r w' -> fst r = OK -> 
  c_tokens (w_ctx w) = [] -> c_tokens (w_ctx w') = [].
Proof.
  intros a k w r w' K H O T.
  assert (X : forall (m : M (Z * bytes)), clr fst m -> msg_out m w = Ret r w' -> c_tokens (w_ctx w') = []).
  { intros m C Y. unfold msg_out, bind in Y. specialize (C w). destruct (m w) as [[z b] w1|]; [|discriminate]. cbn in Y. injection Y as <- <-. now apply C. }
  assert (Y : forall (m : M Z), clr (fun z => z) m -> no_out m w = Ret r w' -> c_tokens (w_ctx w') = []).
  { intros m C Y. unfold no_out, bind in Y. specialize (C w). destruct (m w) as [z w1|]; [|discriminate]. cbn in Y. injection Y as <- <-. now apply C. }
  destruct a; try discriminate K; cbn [do_api] in H.
  - exact (X _ (clr_1c _ _) H).
  - unfold no_out, bind in H. pose proof (stays_1p nn msg w) as C. destruct (message_1_process nn msg w) as [z w1|]; [|discriminate]. cbn in H. injection H as <- <-. now apply C.
  - exact (X _ (clr_2c _ _) H).
  - exact (Y _ (clr_2p _ _) H).
  - exact (X _ (clr_3c _ _) H).
  - exact (Y _ (clr_3p _ _) H).
  - exact (X _ (clr_4c _ _) H).
  - exact (Y _ (clr_4p _ _) H).
Qed.
Lemma failed_stops : forall a k w r w', nonneg w -> kind a = Some k -> args_ok a -> permitted k (w_ctx w) ->
  do_api a w = Ret r w' -> fst r <> OK -> c_status (w_ctx w') = SM_ABORTED.
Proof.
  intros a k w r w' Hn K A P H O. destruct (msg_cases _ _ _ _ _ K Hn H) as [(-> & [(_ & N)|(_ & _ & N)])|(_ & _ & Q & _)]; [contradiction|contradiction|].
  destruct (cp_fail _ _ _ _ _ _ _ _ _ Q O) as (e & c1 & _ & _ & KE). apply kept_fields in KE as (_ & _ & _ & KE & _). exact KE.
Qed.
Lemma clean_step : forall a w r w', nonneg w -> clean w -> do_api a w = Ret r w' -> clean w'.
Proof.
  intros a w r w' Hn C H. destruct (kind a) as [k|] eqn:K.
  - destruct (msg_cases _ _ _ _ _ K Hn H) as [(-> & _)|(A & P & _)]; [exact C|].
    destruct (Z.eq_dec (fst r) OK) as [O|O].
    + right. apply (ok_tokens _ _ _ _ _ K H O). destruct C as [C|C]; [|exact C]. exfalso. unfold permitted in P. rewrite C in P. destruct k; discriminate P.
    + left. exact (failed_stops _ _ _ _ _ Hn K A P H O).
  - assert (Q : a = AInit \/ a = ADeinit \/ (a <> AInit /\ a <> ADeinit)) by (destruct a; auto; right; right; split; discriminate).
    destruct Q as [->|[->|[Q1 Q2]]].
    + rewrite init_run in H. injection H as _ <-. right. reflexivity.
    + destruct (deinit_run _ _ _ H) as [(_ & _ & ->)|(_ & _ & ->)]; [right; reflexivity|exact C].
    + pose proof (sat_run _ _ _ _ _ _ _ (other_post _ _ K Q1 Q2 Hn) H) as [_ O]. pose proof (other_tokens _ _ _ _ K Q1 Q2 H) as T.
      unfold clean. rewrite T. destruct (ot_status _ _ _ _ O) as [S|(_ & S & _)]; [rewrite S; exact C|left; exact S].
Qed.
Lemma in_use_clean : forall c, in_use c -> c_status c = SM_ABORTED \/ c_tokens c = [].
Proof.
  induction 1 as [c t r c' t' H|c c0 t a r c' t' _ IH R H].
  - rewrite init_run in H. injection H as _ <- _. now right.
  - pose proof (reachable_nonneg _ R) as Hn. assert (N : nonneg (Wd c t)) by exact Hn. exact (clean_step a (Wd c t) r (Wd c' t') N IH H).
Qed.
Lemma waiting_2 : forall nn m c t r w', message_2_process nn m (Wd c t) = Ret r w' -> r = OK -> in_use c -> c_tokens c = [].
Proof.
  intros nn m c t r w' H O U. destruct (in_use_clean _ U) as [S|T]; [|exact T]. exfalso. unfold message_2_process in H.
  destruct (negb nn || _); [injection H as <- _; discriminate|]. unfold bind at 1, getc in H. cbn [w_ctx] in H.
  unfold in_state in H. rewrite S in H. cbn in H. injection H as <- _. discriminate.
Qed.
Lemma waiting_3 : forall nn m c t r w', message_3_process nn m (Wd c t) = Ret r w' -> r = OK -> in_use c -> c_tokens c = [].
Proof.
  intros nn m c t r w' H O U. destruct (in_use_clean _ U) as [S|T]; [|exact T]. exfalso. unfold message_3_process in H.
  destruct (negb nn || _); [injection H as <- _; discriminate|]. unfold bind at 1, getc in H. cbn [w_ctx] in H.
  unfold in_state in H. rewrite S in H. cbn in H. injection H as <- _. discriminate.
Qed.
(** ** The claims about single calls *)
Lemma in_use_2 : forall nn m c t c' t' (Q : Prop), message_2_process nn m (Wd c t) = Ret OK (Wd c' t') ->
  (sizes_ok (the_suite c) -> is_message m -> c_tokens c = [] -> Q) -> sizes_ok (the_suite c) -> is_message m -> in_use c -> Q.
Proof. intros nn m c t c' t' Q H K S M U. exact (K S M (waiting_2 _ _ _ _ _ _ H eq_refl U)). Qed.
Lemma in_use_3 : forall nn m c t c' t' (Q : Prop), message_3_process nn m (Wd c t) = Ret OK (Wd c' t') ->
  (sizes_ok (the_suite c) -> is_message m -> c_tokens c = [] -> Q) -> sizes_ok (the_suite c) -> is_message m -> in_use c -> Q.
Proof. intros nn m c t c' t' Q H K S M U. exact (K S M (waiting_3 _ _ _ _ _ _ H eq_refl U)). Qed.
End Clean.
Lemma used_authentic_2 : forall (E : env) nn m c t c' t',
  message_2_process nn m (Wd c t) = Ret OK (Wd c' t') ->
  sizes_ok (the_suite c) -> is_message m -> in_use c ->
  exists e, t' = e ++ t /\ (octets e ->
    exists x ct id sig cr0 pub, let st := responder_static (c_chosen_method c) in
      carries m [Bstr (r2_gy x ++ ct)] /\ zlen (r2_gy x) = cs_ecc (the_suite c) /\
      agreed e (priv_of c) (r2_gy x) (r2_gxy x) /\
      schedule_2 e (the_suite c) (c_chosen_method c) (th_of c) (cid_rfc (c_peer_cid c'))
        (fun t g => agreed t (priv_of c) pub g) x /\
      r2_ptxt x = xor_bytes ct (r2_ks x) /\
      carries (r2_ptxt x) (plaintext_2_items (cid_rfc (c_peer_cid c')) id sig (map ead_of (r2_ead x))) /\
      names false id cr0 /\ In (EvCredVerify cr0 OK (r2_cred x) pub) e /\
      checks e st pub (r2_th2 x) (r2_cred x) (r2_ead x) (r2_mac x) sig).
Proof. intros E nn m c t c' t' H. apply (in_use_2 _ _ _ _ _ _ _ H). exact (authentic_2 nn m c t c' t' H). Qed.
Lemma used_authentic_3 : forall (E : env) nn m c t c' t',
  message_3_process nn m (Wd c t) = Ret OK (Wd c' t') ->
  sizes_ok (the_suite c) -> is_message m -> in_use c ->
  c_status c' = SM_COMPLETED /\ c_oscore_ok c' = true /\
  exists e, t' = e ++ t /\ (octets e ->
    exists x ct id sig cr0 pub, let st := initiator_static (c_chosen_method c) in
      carries m [Bstr ct] /\
      schedule_3 e (the_suite c) (c_chosen_method c) (th_of c) (prk_of c) (fun t g => agreed t (priv_of c) pub g) x /\
      decrypted e (r3_key x) (r3_iv x) (aad (th_of c)) ct (r3_ptxt x) /\
      carries (r3_ptxt x) (plaintext_3_items id sig (map ead_of (r3_ead x))) /\
      names true id cr0 /\ In (EvCredVerify cr0 OK (r3_cred x) pub) e /\
      checks e st pub (th_of c) (r3_cred x) (r3_ead x) (r3_mac x) sig).
Proof. intros E nn m c t c' t' H. apply (in_use_3 _ _ _ _ _ _ _ H). exact (authentic_3 nn m c t c' t' H). Qed.
Lemma used_mac_2 : forall (E : env) nn m c t c' t',
  message_2_process nn m (Wd c t) = Ret OK (Wd c' t') ->
  sizes_ok (the_suite c) -> is_message m -> in_use c ->
  exists e, t' = e ++ t /\ (octets e -> exists gy ct ks id sig cr l th prk pub context len mac,
    carries m [Bstr (gy ++ ct)] /\
    carries (xor_bytes ct ks) (plaintext_2_items (cid_rfc (c_peer_cid c')) id sig (map ead_of l)) /\
    expanded e prk (info MAC_2 context len) len mac /\ zlen mac = len /\
    mac_rule (c_chosen_method c) [1; 3] (the_suite c) len /\
    (In (c_chosen_method c) [1; 3] -> sig = mac) /\
    (~ In (c_chosen_method c) [1; 3] -> verified e pub (sig_input th cr l mac) sig)).
Proof. intros E nn m c t c' t' H. apply (in_use_2 _ _ _ _ _ _ _ H). exact (mac_process_2 nn m c t c' t' H). Qed.
Lemma used_mac_3 : forall (E : env) nn m c t c' t',
  message_3_process nn m (Wd c t) = Ret OK (Wd c' t') ->
  sizes_ok (the_suite c) -> is_message m -> in_use c ->
  exists e, t' = e ++ t /\ (octets e -> exists key iv ct ptxt id sig cr l prk pub context len mac,
    carries m [Bstr ct] /\ decrypted e key iv (aad (th_of c)) ct ptxt /\
    carries ptxt (plaintext_3_items id sig (map ead_of l)) /\
    expanded e prk (info MAC_3 context len) len mac /\ zlen mac = len /\
    mac_rule (c_chosen_method c) [2; 3] (the_suite c) len /\
    (In (c_chosen_method c) [2; 3] -> sig = mac) /\
    (~ In (c_chosen_method c) [2; 3] -> verified e pub (sig_input (th_of c) cr l mac) sig)).
Proof. intros E nn m c t c' t' H. apply (in_use_3 _ _ _ _ _ _ _ H). exact (mac_process_3 nn m c t c' t' H). Qed.
