(** A session under way does not depend on the methods set, nor on suites other than its own.  No code of /repo is modelled here. *)
From Verif Require Import Monad Cbor CborGen Common Api Msg1 Msg2 Msg3 Msg4 Exporter MsgError History Spec HistoryProofs Order OrderProofs.

(** The context with other methods and suites. *)
Definition other (ms : list Z) (ml : Z) (ss : list csuite) (sl : Z) (c : ctx) : ctx := set_methods ms (set_method_len ml (set_csuites ss (set_csuite_len sl c))).
Lemma nth_skip : forall A (n i : nat) (l : list A) d, nth i (skipn n l) d = nth (n + i) l d.
Proof. intros A. induction n as [|n IH]; intros i l d; [reflexivity|]. destruct l as [|x l]; [now destruct i|]. cbn [skipn Nat.add nth]. apply IH. Qed.
Section Sim.
Context {E : env}.
Variables (ms : list Z) (ml : Z) (ss : list csuite) (sl : Z) (ss0 : list csuite) (sl0 : Z).
Notation alt := (other ms ml ss sl).
Definition rel (c : ctx) : Prop := c_status c <> SM_START /\ c_csuites c = ss0 /\ c_csuite_len c = sl0 /\
  nth (Z.to_nat (c_csuite_idx c)) ss csuite0 = nth (Z.to_nat (c_csuite_idx c)) ss0 csuite0.
Definition sim {A} (m m' : M A) : Prop := forall c t, rel c ->
  match m (Wd c t), m' (Wd (alt c) t) with
  | Ret a w1, Ret a' w2 => a' = a /\ w2 = Wd (alt (w_ctx w1)) (w_tr w1) /\ rel (w_ctx w1)
  | Ub u, Ub u' => u' = u
  | _, _ => False
  end.
Lemma bind_s : forall A B (m m' : M A) (k k' : A -> M B), sim m m' -> (forall a, sim (k a) (k' a)) -> sim (bind m k) (bind m' k').
Proof.
  intros A B m m' k k' S1 S2 c t R. specialize (S1 c t R). unfold bind. destruct (m (Wd c t)) as [a [c1 t1]|u], (m' (Wd (alt c) t)) as [a' w2|u']; try contradiction.
  - destruct S1 as (-> & -> & R1). exact (S2 a c1 t1 R1).
  - exact S1.
Qed.
Lemma getc_b : forall B (k k' : ctx -> M B), (forall c, rel c -> sim (k c) (k' (alt c))) -> sim (bind getc k) (bind getc k').
Proof. intros B k k' S c t R. exact (S c R c t R). Qed.
Lemma modify_s : forall f g, (forall c, rel c -> g (alt c) = alt (f c) /\ rel (f c)) -> sim (modify f) (modify g).
Proof. intros f g S c t R. unfold modify. cbn. destruct (S c R) as [Q R1]. split; [reflexivity|]. split; [now rewrite Q|exact R1]. Qed.
Lemma ret_s : forall A (a : A), sim (ret a) (ret a). Proof. intros A a c t R. exact (conj eq_refl (conj eq_refl R)). Qed.
Lemma fault_s : forall A u, sim (@fault A u) (@fault A u). Proof. intros A u c t R. reflexivity. Qed.
Lemma trace_s : sim trace trace. Proof. intros c t R. exact (conj eq_refl (conj eq_refl R)). Qed.
Lemma emit_s : forall e, sim (emit e) (emit e). Proof. intros e c t R. exact (conj eq_refl (conj eq_refl R)). Qed.
Lemma check_s : forall b u, sim (check b u) (check b u). Proof. intros [] u; [apply ret_s|apply fault_s]. Qed.
Lemma need_s : forall A (o : option A) u, sim (need o u) (need o u). Proof. intros A [a|] u; [apply ret_s|apply fault_s]. Qed.
Create HintDb sm discriminated.
#[local] Hint Constants Opaque : sm.
#[local] Hint Transparent bytes M : sm.
#[local] Hint Resolve ret_s fault_s check_s need_s emit_s trace_s : sm.
Ltac s_rel Rd := destruct Rd as (? & Rc & Rl & Ri); unfold rel; split; [cbn; first [discriminate|assumption|match goal with R : rel _ |- _ => exact (proj1 R) end]|split; [exact Rc|split; [exact Rl|exact Ri]]].
Ltac s_mod := apply modify_s; let d := fresh "d" in let Rd := fresh "Rd" in intros d Rd; split; [reflexivity|s_rel Rd].
Ltac s_get := apply getc_b; let d := fresh "d" in let Rd := fresh "Rd" in intros d Rd; cbv beta; match goal with |- sim ?m _ => change (sim m m) end.
Ltac s_step :=
  lazymatch goal with
  | |- sim (bind getc _) _ => s_get
  | |- sim (modify _) _ => s_mod
  | |- sim (bind _ _) _ => apply bind_s; [|intro]
  | |- sim (if ?b then _ else _) _ => destruct b
  | |- sim (match ?x with _ => _ end) _ => destruct x
  | |- sim (let _ := _ in _) _ => cbv zeta
  | |- sim ((fun _ => _) _) _ => cbv beta
  | |- sim _ _ => solve [auto 2 with sm nocore]
  end.
Ltac s_auto := repeat s_step.
Lemma free_s : forall b, sim (free b) (free b). Proof. intros. unfold free. s_auto. Qed.
#[local] Hint Resolve free_s : sm.
Lemma alloc_s : forall b n, sim (alloc b n) (alloc b n). Proof. intros. unfold alloc. s_auto. Qed.
#[local] Hint Resolve alloc_s : sm.
Lemma out_ok_s : forall n o, sim (out_ok n o) (out_ok n o). Proof. intros. unfold out_ok. s_auto. Qed.
#[local] Hint Resolve out_ok_s : sm.
Lemma rd_s : forall a b l, sim (rd a b l) (rd a b l). Proof. intros. unfold rd. s_auto. Qed.
#[local] Hint Resolve rd_s : sm.
Lemma call_import_s : forall kt key, sim (call_import kt key) (call_import kt key). Proof. intros. unfold call_import. s_auto. Qed.
#[local] Hint Resolve call_import_s : sm.
Lemma call_destroy_s : forall kid, sim (call_destroy kid) (call_destroy kid). Proof. intros. unfold call_destroy. s_auto. Qed.
#[local] Hint Resolve call_destroy_s : sm.
Lemma call_mkpair_s : forall kid npriv npub, sim (call_mkpair kid npriv npub) (call_mkpair kid npriv npub). Proof. intros. unfold call_mkpair. s_auto. Qed.
#[local] Hint Resolve call_mkpair_s : sm.
Lemma call_agree_s : forall kid peer n, sim (call_agree kid peer n) (call_agree kid peer n). Proof. intros. unfold call_agree. s_auto. Qed.
#[local] Hint Resolve call_agree_s : sm.
Lemma call_sign_s : forall kid input n, sim (call_sign kid input n) (call_sign kid input n). Proof. intros. unfold call_sign. s_auto. Qed.
#[local] Hint Resolve call_sign_s : sm.
Lemma call_verify_s : forall kid input sign, sim (call_verify kid input sign) (call_verify kid input sign). Proof. intros. unfold call_verify. s_auto. Qed.
#[local] Hint Resolve call_verify_s : sm.
Lemma call_extract_s : forall kid salt n, sim (call_extract kid salt n) (call_extract kid salt n). Proof. intros. unfold call_extract. s_auto. Qed.
#[local] Hint Resolve call_extract_s : sm.
Lemma call_expand_s : forall kid info n, sim (call_expand kid info n) (call_expand kid info n). Proof. intros. unfold call_expand. s_auto. Qed.
#[local] Hint Resolve call_expand_s : sm.
Lemma call_encrypt_s : forall kid nonce aad ptxt n, sim (call_encrypt kid nonce aad ptxt n) (call_encrypt kid nonce aad ptxt n). Proof. intros. unfold call_encrypt. s_auto. Qed.
#[local] Hint Resolve call_encrypt_s : sm.
Lemma call_decrypt_s : forall kid nonce aad ctxt n, sim (call_decrypt kid nonce aad ctxt n) (call_decrypt kid nonce aad ctxt n). Proof. intros. unfold call_decrypt. s_auto. Qed.
#[local] Hint Resolve call_decrypt_s : sm.
Lemma call_hash_s : forall input n, sim (call_hash input n) (call_hash input n). Proof. intros. unfold call_hash. s_auto. Qed.
#[local] Hint Resolve call_hash_s : sm.
Lemma call_fetch_s : sim (call_fetch) (call_fetch). Proof. intros. unfold call_fetch. s_auto. Qed.
#[local] Hint Resolve call_fetch_s : sm.
Lemma call_cverify_s : forall cr, sim (call_cverify cr) (call_cverify cr). Proof. intros. unfold call_cverify. s_auto. Qed.
#[local] Hint Resolve call_cverify_s : sm.
Lemma call_compose_s : forall f msg n, sim (call_compose f msg n) (call_compose f msg n). Proof. intros. unfold call_compose. s_auto. Qed.
#[local] Hint Resolve call_compose_s : sm.
Lemma call_process_s : forall f msg l, sim (call_process f msg l) (call_process f msg l). Proof. intros. unfold call_process. s_auto. Qed.
#[local] Hint Resolve call_process_s : sm.
Lemma rd_ptr_s : forall (x0 : Z) (x1 : option bytes), sim (rd_ptr x0 x1) (rd_ptr x0 x1). Proof. intros. unfold rd_ptr. s_auto. Qed.
#[local] Hint Resolve rd_ptr_s : sm.
Lemma get_suite_s : sim get_suite get_suite.
Proof.
  unfold get_suite. apply getc_b. intros c R. change (the_suite (alt c)) with (nth (Z.to_nat (c_csuite_idx c)) ss csuite0). destruct R as (R1 & R2 & R3 & R4).
  rewrite R4, <- R2. change (nth (Z.to_nat (c_csuite_idx c)) (c_csuites c) csuite0) with (the_suite c). change (c_csuite_idx (alt c)) with (c_csuite_idx c). s_auto.
Qed.
#[local] Hint Resolve get_suite_s : sm.
Lemma get_th_s : sim (get_th) (get_th). Proof. intros. unfold get_th. s_auto. Qed.
#[local] Hint Resolve get_th_s : sm.
Lemma get_prk_s : sim (get_prk) (get_prk). Proof. intros. unfold get_prk. s_auto. Qed.
#[local] Hint Resolve get_prk_s : sm.
Lemma get_dh_pub_s : sim (get_dh_pub) (get_dh_pub). Proof. intros. unfold get_dh_pub. s_auto. Qed.
#[local] Hint Resolve get_dh_pub_s : sm.
Lemma get_dh_priv_s : sim (get_dh_priv) (get_dh_priv). Proof. intros. unfold get_dh_priv. s_auto. Qed.
#[local] Hint Resolve get_dh_priv_s : sm.
Lemma get_dh_peer_s : sim (get_dh_peer) (get_dh_peer). Proof. intros. unfold get_dh_peer. s_auto. Qed.
#[local] Hint Resolve get_dh_peer_s : sm.
Lemma get_dh_secret_s : sim (get_dh_secret) (get_dh_secret). Proof. intros. unfold get_dh_secret. s_auto. Qed.
#[local] Hint Resolve get_dh_secret_s : sm.
Lemma wr_s : forall (x0 : Z) (x1 : bytes), sim (wr x0 x1) (wr x0 x1). Proof. intros. unfold wr. s_auto. Qed.
#[local] Hint Resolve wr_s : sm.
Lemma put_th_s : forall (x0 : bytes), sim (put_th x0) (put_th x0). Proof. intros. unfold put_th. s_auto. Qed.
#[local] Hint Resolve put_th_s : sm.
Lemma put_prk_s : forall (x0 : bytes), sim (put_prk x0) (put_prk x0). Proof. intros. unfold put_prk. s_auto. Qed.
#[local] Hint Resolve put_prk_s : sm.
Lemma put_dh_pub_s : forall (x0 : bytes), sim (put_dh_pub x0) (put_dh_pub x0). Proof. intros. unfold put_dh_pub. s_auto. Qed.
#[local] Hint Resolve put_dh_pub_s : sm.
Lemma put_dh_priv_s : forall (x0 : bytes), sim (put_dh_priv x0) (put_dh_priv x0). Proof. intros. unfold put_dh_priv. s_auto. Qed.
#[local] Hint Resolve put_dh_priv_s : sm.
Lemma put_dh_peer_s : forall (x0 : bytes), sim (put_dh_peer x0) (put_dh_peer x0). Proof. intros. unfold put_dh_peer. s_auto. Qed.
#[local] Hint Resolve put_dh_peer_s : sm.
Lemma put_dh_secret_s : forall (x0 : bytes), sim (put_dh_secret x0) (put_dh_secret x0). Proof. intros. unfold put_dh_secret. s_auto. Qed.
#[local] Hint Resolve put_dh_secret_s : sm.
Lemma comp_id_cred_len_s : forall (x0 : creds), sim (comp_id_cred_len x0) (comp_id_cred_len x0). Proof. intros. unfold comp_id_cred_len. s_auto. Qed.
#[local] Hint Resolve comp_id_cred_len_s : sm.
Lemma comp_cred_len_s : forall (x0 : creds), sim (comp_cred_len x0) (comp_cred_len x0). Proof. intros. unfold comp_cred_len. s_auto. Qed.
#[local] Hint Resolve comp_cred_len_s : sm.
Lemma rd_tok_s : forall (x0 : Z) (x1 : option bytes), sim (rd_tok x0 x1) (rd_tok x0 x1). Proof. intros. unfold rd_tok. s_auto. Qed.
#[local] Hint Resolve rd_tok_s : sm.
Lemma read_toks_s : forall (x0 : (token -> bool)) (x1 : list token), sim (read_toks x0 x1) (read_toks x0 x1). Proof. intros. revert x0; induction x1; intros; cbn [read_toks]; s_auto. Qed.
#[local] Hint Resolve read_toks_s : sm.
Lemma encode_tokens_s : forall (x0 : (token -> bool)) (x1 : Z) (x2 : list token), sim (encode_tokens x0 x1 x2) (encode_tokens x0 x1 x2). Proof. intros. unfold encode_tokens. s_auto. Qed.
#[local] Hint Resolve encode_tokens_s : sm.
Lemma kid_compact_encoding_s : forall (x0 : creds), sim (kid_compact_encoding x0) (kid_compact_encoding x0). Proof. intros. unfold kid_compact_encoding. s_auto. Qed.
#[local] Hint Resolve kid_compact_encoding_s : sm.
Lemma id_cred_of_s : forall (x0 : creds), sim (id_cred_of x0) (id_cred_of x0). Proof. intros. unfold id_cred_of. s_auto. Qed.
#[local] Hint Resolve id_cred_of_s : sm.
Lemma cred_bytes_s : forall (x0 : creds) (x1 : Z), sim (cred_bytes x0 x1) (cred_bytes x0 x1). Proof. intros. unfold cred_bytes. s_auto. Qed.
#[local] Hint Resolve cred_bytes_s : sm.
Lemma comp_mac_context_length_s : forall (x0 : creds), sim (comp_mac_context_length x0) (comp_mac_context_length x0). Proof. intros. unfold comp_mac_context_length. s_auto. Qed.
#[local] Hint Resolve comp_mac_context_length_s : sm.
Lemma comp_mac_context_s : forall (x0 : creds) (x1 : Z), sim (comp_mac_context x0 x1) (comp_mac_context x0 x1). Proof. intros. unfold comp_mac_context. s_auto. Qed.
#[local] Hint Resolve comp_mac_context_s : sm.
Lemma comp_mac_length_s : sim (comp_mac_length) (comp_mac_length). Proof. intros. unfold comp_mac_length. s_auto. Qed.
#[local] Hint Resolve comp_mac_length_s : sm.
Lemma comp_sign_or_mac_length_s : sim (comp_sign_or_mac_length) (comp_sign_or_mac_length). Proof. intros. unfold comp_sign_or_mac_length. s_auto. Qed.
#[local] Hint Resolve comp_sign_or_mac_length_s : sm.
Lemma comp_mac_s : forall (x0 : macctx) (x1 : Z), sim (comp_mac x0 x1) (comp_mac x0 x1). Proof. intros. unfold comp_mac. s_auto. Qed.
#[local] Hint Resolve comp_mac_s : sm.
Lemma sign_cose_sign_1_s : forall (x0 : creds) (x1 : macctx) (x2 : bytes) (x3 : Z), sim (sign_cose_sign_1 x0 x1 x2 x3) (sign_cose_sign_1 x0 x1 x2 x3). Proof. intros. unfold sign_cose_sign_1. s_auto. Qed.
#[local] Hint Resolve sign_cose_sign_1_s : sm.
Lemma verify_cose_sign_1_s : forall (x0 : macctx) (x1 : bytes) (x2 : bytes) (x3 : bytes), sim (verify_cose_sign_1 x0 x1 x2 x3) (verify_cose_sign_1 x0 x1 x2 x3). Proof. intros. unfold verify_cose_sign_1. s_auto. Qed.
#[local] Hint Resolve verify_cose_sign_1_s : sm.
Lemma comp_sign_or_mac_s : forall (x0 : creds) (x1 : macctx) (x2 : bytes) (x3 : Z), sim (comp_sign_or_mac x0 x1 x2 x3) (comp_sign_or_mac x0 x1 x2 x3). Proof. intros. unfold comp_sign_or_mac. s_auto. Qed.
#[local] Hint Resolve comp_sign_or_mac_s : sm.
Lemma verify_sign_or_mac_s : forall (x0 : macctx) (x1 : bytes) (x2 : bytes) (x3 : bytes), sim (verify_sign_or_mac x0 x1 x2 x3) (verify_sign_or_mac x0 x1 x2 x3). Proof. intros. unfold verify_sign_or_mac. s_auto. Qed.
#[local] Hint Resolve verify_sign_or_mac_s : sm.
Lemma enter_s : forall (x0 : Z) (x1 : Z), sim (enter x0 x1) (enter x0 x1). Proof. intros. unfold enter. s_auto. Qed.
#[local] Hint Resolve enter_s : sm.
Lemma ead_compose_s : sim (ead_compose) (ead_compose). Proof. intros. unfold ead_compose. s_auto. Qed.
#[local] Hint Resolve ead_compose_s : sm.
Lemma hash_into_th_s : forall (x0 : Z) (x1 : bytes), sim (hash_into_th x0 x1) (hash_into_th x0 x1). Proof. intros. unfold hash_into_th. s_auto. Qed.
#[local] Hint Resolve hash_into_th_s : sm.
Lemma started : forall c, rel c -> in_state SM_START TH_INVALID PRK_INVALID c = false.
Proof. intros c [R _]. unfold in_state. apply Z.eqb_neq in R. now rewrite R. Qed.
Lemma message_1_compose_s : forall n z, sim (message_1_compose n z) (message_1_compose n z).
Proof.
  intros n z. unfold message_1_compose. s_step; [s_auto|]. apply getc_b. intros c R. cbv beta. change (in_state SM_START TH_INVALID PRK_INVALID (alt c)) with (in_state SM_START TH_INVALID PRK_INVALID c).
  rewrite (started c R). cbn [negb]. s_auto.
Qed.
#[local] Hint Resolve message_1_compose_s : sm.
Lemma message_1_process_s : forall n z, sim (message_1_process n z) (message_1_process n z).
Proof.
  intros n z. unfold message_1_process. s_step; [s_auto|]. apply getc_b. intros c R. cbv beta. change (in_state SM_START TH_INVALID PRK_INVALID (alt c)) with (in_state SM_START TH_INVALID PRK_INVALID c).
  rewrite (started c R). cbn [negb]. s_auto.
Qed.
#[local] Hint Resolve message_1_process_s : sm.
Lemma gen_dh_keys_s : sim (gen_dh_keys) (gen_dh_keys). Proof. intros. unfold gen_dh_keys. s_auto. Qed.
#[local] Hint Resolve gen_dh_keys_s : sm.
Lemma comp_dh_secret_s : sim (comp_dh_secret) (comp_dh_secret). Proof. intros. unfold comp_dh_secret. s_auto. Qed.
#[local] Hint Resolve comp_dh_secret_s : sm.
Lemma comp_th_2_s : sim (comp_th_2) (comp_th_2). Proof. intros. unfold comp_th_2. s_auto. Qed.
#[local] Hint Resolve comp_th_2_s : sm.
Lemma comp_prk_2e_s : sim (comp_prk_2e) (comp_prk_2e). Proof. intros. unfold comp_prk_2e. s_auto. Qed.
#[local] Hint Resolve comp_prk_2e_s : sm.
Lemma kdf_s : forall x len l cx cx' k k' n, sim cx cx' -> sim k k' -> sim (kdf x len l cx k n) (kdf x len l cx' k' n).
Proof. intros x len l cx cx' k k' n H1 H2. unfold kdf. repeat first [exact H1|exact H2|s_step]. Qed.
#[local] Hint Extern 1 (sim (kdf _ _ _ _ _ _) _) => (apply kdf_s; solve [auto 2 with sm nocore]) : sm.
Lemma comp_salt_3e2m_s : forall (x0 : Z), sim (comp_salt_3e2m x0) (comp_salt_3e2m x0). Proof. intros. unfold comp_salt_3e2m. s_auto. Qed.
#[local] Hint Resolve comp_salt_3e2m_s : sm.
Lemma agree_eph_s : forall (x0 : bytes) (x1 : Z), sim (agree_eph x0 x1) (agree_eph x0 x1). Proof. intros. unfold agree_eph. s_auto. Qed.
#[local] Hint Resolve agree_eph_s : sm.
Lemma agree_static_s : forall (x0 : creds) (x1 : Z), sim (agree_static x0 x1) (agree_static x0 x1). Proof. intros. unfold agree_static. s_auto. Qed.
#[local] Hint Resolve agree_static_s : sm.
Lemma comp_grx_s : forall (x0 : creds) (x1 : bytes) (x2 : Z), sim (comp_grx x0 x1 x2) (comp_grx x0 x1 x2). Proof. intros. unfold comp_grx. s_auto. Qed.
#[local] Hint Resolve comp_grx_s : sm.
Lemma prk_static_s : forall f f' g g' n, (forall x, sim (f x) (f' x)) -> (forall x, sim (g x) (g' x)) -> sim (prk_static f g n) (prk_static f' g' n).
Proof. intros f f' g g' n H1 H2. unfold prk_static. repeat first [apply H1|apply H2|s_step]. Qed.
#[local] Hint Extern 1 (sim (prk_static _ _ _) _) => (apply prk_static_s; intro; solve [auto 2 with sm nocore]) : sm.
Lemma comp_prk_3e2m_s : forall (x0 : creds) (x1 : bytes), sim (comp_prk_3e2m x0 x1) (comp_prk_3e2m x0 x1). Proof. intros. unfold comp_prk_3e2m. s_auto. Qed.
#[local] Hint Resolve comp_prk_3e2m_s : sm.
Lemma comp_plaintext_len_s : forall (x0 : macctx) (x1 : Z), sim (comp_plaintext_len x0 x1) (comp_plaintext_len x0 x1). Proof. intros. unfold comp_plaintext_len. s_auto. Qed.
#[local] Hint Resolve comp_plaintext_len_s : sm.
Lemma fill_plaintext_s : forall (x0 : macctx) (x1 : bytes) (x2 : bytes) (x3 : Z), sim (fill_plaintext x0 x1 x2 x3) (fill_plaintext x0 x1 x2 x3). Proof. intros. unfold fill_plaintext. s_auto. Qed.
#[local] Hint Resolve fill_plaintext_s : sm.
Lemma prepare_plaintext_2_s : forall (x0 : macctx) (x1 : bytes) (x2 : Z), sim (prepare_plaintext_2 x0 x1 x2) (prepare_plaintext_2 x0 x1 x2). Proof. intros. unfold prepare_plaintext_2. s_auto. Qed.
#[local] Hint Resolve prepare_plaintext_2_s : sm.
Lemma comp_keystream_s : forall (x0 : bytes) (x1 : Z), sim (comp_keystream x0 x1) (comp_keystream x0 x1). Proof. intros. unfold comp_keystream. s_auto. Qed.
#[local] Hint Resolve comp_keystream_s : sm.
Lemma prepare_message_2_s : forall (x0 : bytes) (x1 : Z), sim (prepare_message_2 x0 x1) (prepare_message_2 x0 x1). Proof. intros. unfold prepare_message_2. s_auto. Qed.
#[local] Hint Resolve prepare_message_2_s : sm.
Lemma comp_ciphertext_2_len_s : forall (x0 : bytes), sim (comp_ciphertext_2_len x0) (comp_ciphertext_2_len x0). Proof. intros. unfold comp_ciphertext_2_len. s_auto. Qed.
#[local] Hint Resolve comp_ciphertext_2_len_s : sm.
Lemma parse_msg_2_s : forall (x0 : bytes) (x1 : Z), sim (parse_msg_2 x0 x1) (parse_msg_2 x0 x1). Proof. intros. unfold parse_msg_2. s_auto. Qed.
#[local] Hint Resolve parse_msg_2_s : sm.
Lemma parse_id_cred_s : forall (x0 : bool) (x1 : idv), sim (parse_id_cred x0 x1) (parse_id_cred x0 x1). Proof. intros. unfold parse_id_cred. s_auto. Qed.
#[local] Hint Resolve parse_id_cred_s : sm.
Lemma store_tokens_s : forall (x0 : list token), sim (store_tokens x0) (store_tokens x0). Proof. intros. unfold store_tokens. s_auto. Qed.
#[local] Hint Resolve store_tokens_s : sm.
Lemma store_peer_cid_s : forall (x0 : cidv), sim (store_peer_cid x0) (store_peer_cid x0). Proof. intros. unfold store_peer_cid. s_auto. Qed.
#[local] Hint Resolve store_peer_cid_s : sm.
Lemma parse_plaintext_2_s : forall (x0 : bytes), sim (parse_plaintext_2 x0) (parse_plaintext_2 x0). Proof. intros. unfold parse_plaintext_2. s_auto. Qed.
#[local] Hint Resolve parse_plaintext_2_s : sm.
Lemma comp_th_next_s : forall (x0 : Z) (x1 : Z) (x2 : bool) (x3 : macctx) (x4 : bytes), sim (comp_th_next x0 x1 x2 x3 x4) (comp_th_next x0 x1 x2 x3 x4). Proof. intros. unfold comp_th_next. s_auto. Qed.
#[local] Hint Resolve comp_th_next_s : sm.
Lemma comp_th_3_s : forall (x0 : macctx) (x1 : bytes), sim (comp_th_3 x0 x1) (comp_th_3 x0 x1). Proof. intros. unfold comp_th_3. s_auto. Qed.
#[local] Hint Resolve comp_th_3_s : sm.
Lemma frees_s : forall (x0 : list buf), sim (frees x0) (frees x0). Proof. intros. induction x0; cbn [frees]; s_auto. Qed.
#[local] Hint Resolve frees_s : sm.
Lemma fail_s : forall (x0 : list buf) (x1 : Z), sim (fail x0 x1) (fail x0 x1). Proof. intros. unfold fail. s_auto. Qed.
#[local] Hint Resolve fail_s : sm.
Lemma failp_s : forall (x0 : list buf) (x1 : Z), sim (failp x0 x1) (failp x0 x1). Proof. intros. unfold failp. s_auto. Qed.
#[local] Hint Resolve failp_s : sm.
Lemma message_2_compose_s : forall (x0 : bool) (x1 : Z), sim (message_2_compose x0 x1) (message_2_compose x0 x1). Proof. intros. unfold message_2_compose. s_auto. Qed.
#[local] Hint Resolve message_2_compose_s : sm.
Lemma ead_process_s : sim (ead_process) (ead_process). Proof. intros. unfold ead_process. s_auto. Qed.
#[local] Hint Resolve ead_process_s : sm.
Lemma message_2_process_s : forall (x0 : bool) (x1 : bytes), sim (message_2_process x0 x1) (message_2_process x0 x1). Proof. intros. unfold message_2_process. s_auto. Qed.
#[local] Hint Resolve message_2_process_s : sm.
Lemma comp_salt_4e3m_s : forall (x0 : Z), sim (comp_salt_4e3m x0) (comp_salt_4e3m x0). Proof. intros. unfold comp_salt_4e3m. s_auto. Qed.
#[local] Hint Resolve comp_salt_4e3m_s : sm.
Lemma comp_giy_s : forall (x0 : creds) (x1 : bytes) (x2 : Z), sim (comp_giy x0 x1 x2) (comp_giy x0 x1 x2). Proof. intros. unfold comp_giy. s_auto. Qed.
#[local] Hint Resolve comp_giy_s : sm.
Lemma comp_prk_4e3m_s : forall (x0 : creds) (x1 : bytes), sim (comp_prk_4e3m x0 x1) (comp_prk_4e3m x0 x1). Proof. intros. unfold comp_prk_4e3m. s_auto. Qed.
#[local] Hint Resolve comp_prk_4e3m_s : sm.
Lemma prepare_plaintext_3_s : forall (x0 : macctx) (x1 : bytes) (x2 : Z), sim (prepare_plaintext_3 x0 x1 x2) (prepare_plaintext_3 x0 x1 x2). Proof. intros. unfold prepare_plaintext_3. s_auto. Qed.
#[local] Hint Resolve prepare_plaintext_3_s : sm.
Lemma expand_part_s : forall (x0 : Z) (x1 : Z) (x2 : Z), sim (expand_part x0 x1 x2) (expand_part x0 x1 x2). Proof. intros. unfold expand_part. s_auto. Qed.
#[local] Hint Resolve expand_part_s : sm.
Lemma key_iv_aad_s : forall (x0 : Z) (x1 : Z) (x2 : Z), sim (key_iv_aad x0 x1 x2) (key_iv_aad x0 x1 x2). Proof. intros. unfold key_iv_aad. s_auto. Qed.
#[local] Hint Resolve key_iv_aad_s : sm.
Lemma comp_key_iv_aad_3_s : forall (x0 : Z) (x1 : Z) (x2 : Z), sim (comp_key_iv_aad_3 x0 x1 x2) (comp_key_iv_aad_3 x0 x1 x2). Proof. intros. unfold comp_key_iv_aad_3. s_auto. Qed.
#[local] Hint Resolve comp_key_iv_aad_3_s : sm.
Lemma aead_encrypt_s : forall (x0 : bytes) (x1 : bytes) (x2 : bytes) (x3 : bytes) (x4 : Z), sim (aead_encrypt x0 x1 x2 x3 x4) (aead_encrypt x0 x1 x2 x3 x4). Proof. intros. unfold aead_encrypt. s_auto. Qed.
#[local] Hint Resolve aead_encrypt_s : sm.
Lemma comp_ciphertext_s : forall (x0 : bytes) (x1 : bytes) (x2 : bytes) (x3 : bytes) (x4 : Z), sim (comp_ciphertext x0 x1 x2 x3 x4) (comp_ciphertext x0 x1 x2 x3 x4). Proof. intros. unfold comp_ciphertext. s_auto. Qed.
#[local] Hint Resolve comp_ciphertext_s : sm.
Lemma aead_decrypt_s : forall (x0 : bytes) (x1 : bytes) (x2 : bytes) (x3 : bytes) (x4 : Z), sim (aead_decrypt x0 x1 x2 x3 x4) (aead_decrypt x0 x1 x2 x3 x4). Proof. intros. unfold aead_decrypt. s_auto. Qed.
#[local] Hint Resolve aead_decrypt_s : sm.
Lemma decrypt_ciphertext_3_s : forall (x0 : bytes) (x1 : bytes) (x2 : bytes) (x3 : bytes) (x4 : Z), sim (decrypt_ciphertext_3 x0 x1 x2 x3 x4) (decrypt_ciphertext_3 x0 x1 x2 x3 x4). Proof. intros. unfold decrypt_ciphertext_3. s_auto. Qed.
#[local] Hint Resolve decrypt_ciphertext_3_s : sm.
Lemma comp_th_4_s : forall (x0 : macctx) (x1 : bytes), sim (comp_th_4 x0 x1) (comp_th_4 x0 x1). Proof. intros. unfold comp_th_4. s_auto. Qed.
#[local] Hint Resolve comp_th_4_s : sm.
Lemma gen_msg_3_s : forall (x0 : bytes) (x1 : Z), sim (gen_msg_3 x0 x1) (gen_msg_3 x0 x1). Proof. intros. unfold gen_msg_3. s_auto. Qed.
#[local] Hint Resolve gen_msg_3_s : sm.
Lemma parse_plaintext_3_s : forall (x0 : bytes), sim (parse_plaintext_3 x0) (parse_plaintext_3 x0). Proof. intros. unfold parse_plaintext_3. s_auto. Qed.
#[local] Hint Resolve parse_plaintext_3_s : sm.
Lemma message_3_compose_s : forall (x0 : bool) (x1 : Z), sim (message_3_compose x0 x1) (message_3_compose x0 x1). Proof. intros. unfold message_3_compose. s_auto. Qed.
#[local] Hint Resolve message_3_compose_s : sm.
Lemma message_3_process_s : forall (x0 : bool) (x1 : bytes), sim (message_3_process x0 x1) (message_3_process x0 x1). Proof. intros. unfold message_3_process. s_auto. Qed.
#[local] Hint Resolve message_3_process_s : sm.
Lemma prepare_plaintext_4_s : forall (x0 : Z), sim (prepare_plaintext_4 x0) (prepare_plaintext_4 x0). Proof. intros. unfold prepare_plaintext_4. s_auto. Qed.
#[local] Hint Resolve prepare_plaintext_4_s : sm.
Lemma compute_key_iv_aad_4_s : forall (x0 : Z) (x1 : Z) (x2 : Z), sim (compute_key_iv_aad_4 x0 x1 x2) (compute_key_iv_aad_4 x0 x1 x2). Proof. intros. unfold compute_key_iv_aad_4. s_auto. Qed.
#[local] Hint Resolve compute_key_iv_aad_4_s : sm.
Lemma message_4_compose_s : forall (x0 : bool) (x1 : Z), sim (message_4_compose x0 x1) (message_4_compose x0 x1). Proof. intros. unfold message_4_compose. s_auto. Qed.
#[local] Hint Resolve message_4_compose_s : sm.
Lemma message_4_process_s : forall (x0 : bool) (x1 : bytes), sim (message_4_process x0 x1) (message_4_process x0 x1). Proof. intros. unfold message_4_process. s_auto. Qed.
#[local] Hint Resolve message_4_process_s : sm.
Lemma kdf_into_prk_s : forall a b cx cx', sim cx cx' -> sim (kdf_into_prk a b cx) (kdf_into_prk a b cx').
Proof. intros a b cx cx' H1. unfold kdf_into_prk. repeat first [exact H1|s_step]. Qed.
#[local] Hint Extern 1 (sim (kdf_into_prk _ _ _) _) => (apply kdf_into_prk_s; solve [auto 2 with sm nocore]) : sm.
Lemma compute_prk_out_s : sim (compute_prk_out) (compute_prk_out). Proof. intros. unfold compute_prk_out. s_auto. Qed.
#[local] Hint Resolve compute_prk_out_s : sm.
Lemma compute_new_prk_out_s : forall (x0 : bytes), sim (compute_new_prk_out x0) (compute_new_prk_out x0). Proof. intros. unfold compute_new_prk_out. s_auto. Qed.
#[local] Hint Resolve compute_new_prk_out_s : sm.
Lemma compute_prk_exporter_s : forall (x0 : Z), sim (compute_prk_exporter x0) (compute_prk_exporter x0). Proof. intros. unfold compute_prk_exporter. s_auto. Qed.
#[local] Hint Resolve compute_prk_exporter_s : sm.
Lemma export_prk_exporter_s : forall (x0 : bool) (x1 : Z) (x2 : Z), sim (export_prk_exporter x0 x1 x2) (export_prk_exporter x0 x1 x2). Proof. intros. unfold export_prk_exporter. s_auto. Qed.
#[local] Hint Resolve export_prk_exporter_s : sm.
Lemma export_key_update_s : forall (x0 : bool) (x1 : bytes), sim (export_key_update x0 x1) (export_key_update x0 x1). Proof. intros. unfold export_key_update. s_auto. Qed.
#[local] Hint Resolve export_key_update_s : sm.
Lemma export_oscore_session_s : forall (x0 : bool) (x1 : Z) (x2 : Z) (x3 : Z) (x4 : Z), sim (export_oscore_session x0 x1 x2 x3 x4) (export_oscore_session x0 x1 x2 x3 x4). Proof. intros. unfold export_oscore_session. s_auto. Qed.
#[local] Hint Resolve export_oscore_session_s : sm.
Definition query (a : api) : bool := match a with AErrSuites _ _ _ => true | _ => false end.
Lemma do_api_s : forall a, is_config a = false -> a <> AInit -> a <> ADeinit -> query a = false \/ ss = ss0 /\ sl = sl0 -> sim (do_api a) (do_api a).
Proof.
  intros [] A NI ND Q; try discriminate A; try congruence; cbn [do_api]; unfold msg_out, no_out; try solve [s_auto].
  destruct Q as [Q|[Q1 Q2]]; [discriminate Q|]. apply getc_b. intros c (_ & R1 & R2 & _). cbv beta.
  replace (error_get_cipher_suites nn size peer_size (alt c)) with (error_get_cipher_suites nn size peer_size c); [s_auto|].
  unfold error_get_cipher_suites. change (c_csuites (alt c)) with ss. change (c_csuite_len (alt c)) with sl. rewrite R1, R2, Q1, Q2. reflexivity.
Qed.
End Sim.

(** [q]: the suites themselves may be asked for. *)
Definition same (q : bool) (c d : ctx) : Prop := d = c \/ c_status c <> SM_START /\ exists ms ml ss sl, d = other ms ml ss sl c /\
  nth (Z.to_nat (c_csuite_idx c)) ss csuite0 = nth (Z.to_nat (c_csuite_idx c)) (c_csuites c) csuite0 /\ (q = true -> ss = c_csuites c /\ sl = c_csuite_len c).
Definition same_run {A} (q : bool) (x y : res A) : Prop := match x, y with
  | Ret a w1, Ret a' w2 => a' = a /\ w_tr w2 = w_tr w1 /\ same q (w_ctx w1) (w_ctx w2)
  | Ub u, Ub u' => u' = u
  | _, _ => False
  end.
Lemma nth_blit : forall A (o o' l : list A) d i, nth i o' d = nth i o d -> nth i (blit o' l) d = nth i (blit o l) d.
Proof.
  intros A o o' l d i H. unfold blit. destruct (Nat.ltb i (length l)) eqn:L.
  - apply Nat.ltb_lt in L. now rewrite !app_nth1.
  - apply Nat.ltb_ge in L. rewrite !app_nth2 by exact L. rewrite !nth_skip. now replace (length l + (i - length l))%nat with i by lia.
Qed.
Lemma same_upd : forall q a c d, is_config a = true -> same q c d -> same q (upd a c) (upd a d).
Proof.
  intros q a c d A [->|(S & ms & ml & ss & sl & -> & N & Q)]; [now left|]. destruct a; try discriminate A; cbn [upd];
    match goal with o : option _ |- _ => destruct o as [y|]; [|right; split; [exact S|exists ms, ml, ss, sl; exact (conj eq_refl (conj N Q))]] end; right; (split; [exact S|]).
  - exists (blit ms y), (zlen y), ss, sl. exact (conj eq_refl (conj N Q)).
  - exists ms, ml, (blit ss y), (zlen y). split; [reflexivity|]. split; [exact (nth_blit _ _ _ y csuite0 _ N)|]. intro H. destruct (Q H) as [-> ->]. now split.
  - exists ms, ml, ss, sl. exact (conj eq_refl (conj N Q)).
  - exists ms, ml, ss, sl. exact (conj eq_refl (conj N Q)).
  - exists ms, ml, ss, sl. exact (conj eq_refl (conj N Q)).
  - exists ms, ml, ss, sl. exact (conj eq_refl (conj N Q)).
  - exists ms, ml, ss, sl. exact (conj eq_refl (conj N Q)).
  - exists ms, ml, ss, sl. exact (conj eq_refl (conj N Q)).
Qed.
Section Runs.
Context {E : env}.
Lemma same_step : forall q a c d t, q = true \/ query a = false -> same q c d -> same_run q (do_api a (Wd c t)) (do_api a (Wd d t)).
Proof.
  intros q a c d t K S. assert (I : c_is_init d = c_is_init c) by (destruct S as [->|(_ & ms & ml & ss & sl & -> & _)]; reflexivity). destruct (is_config a) eqn:A.
  - destruct (shape _ A) as [v V]. rewrite !V. cbn [w_ctx w_tr]. rewrite I.
    split; [reflexivity|]. split; [reflexivity|]. cbn [w_ctx]. destruct (v (c_is_init c) =? OK); [now apply same_upd|exact S].
  - destruct S as [->|(S & ms & ml & ss & sl & -> & N & Q)]; [destruct (do_api a (Wd c t)); [now repeat split; left|reflexivity]|].
    assert (G : a <> AInit -> a <> ADeinit -> same_run q (do_api a (Wd c t)) (do_api a (Wd (other ms ml ss sl c) t))).
    { intros NI ND. assert (K' : query a = false \/ ss = c_csuites c /\ sl = c_csuite_len c) by (destruct K as [K|K]; [right; now apply Q|now left]).
      pose proof (do_api_s ms ml ss sl (c_csuites c) (c_csuite_len c) a A NI ND K' c t (conj S (conj eq_refl (conj eq_refl N)))) as G.
      destruct (do_api a (Wd c t)) as [r w1|], (do_api a (Wd (other ms ml ss sl c) t)) as [r' w2|]; try exact G. destruct G as (-> & -> & R1 & R2 & R3 & R4). split; [reflexivity|]. split; [reflexivity|].
      right. split; [exact R1|]. exists ms, ml, ss, sl. rewrite R2, R3. exact (conj eq_refl (conj R4 Q)). }
    destruct a; try (apply G; discriminate).
    + rewrite !init_run. split; [reflexivity|]. split; [reflexivity|]. now left.
    + cbn [do_api]. unfold cfg, bind, getc, modify, ret, context_deinit. cbn [w_ctx w_tr]. rewrite I. destruct (negb (c_is_init c)).
      * split; [reflexivity|]. split; [reflexivity|]. right. split; [exact S|exists ms, ml, ss, sl; exact (conj eq_refl (conj N Q))].
      * split; [reflexivity|]. split; [reflexivity|]. now left.
Qed.
Lemma same_runs : forall q m c d t, q = true \/ forallb (fun a => negb (query a)) m = true -> same q c d -> same_run q (runs m (Wd c t)) (runs m (Wd d t)).
Proof.
  intro q. induction m as [|a m IH]; intros c d t K S; cbn [runs]; [now repeat split|]. unfold bind.
  assert (K1 : q = true \/ query a = false) by (destruct K as [K|K]; [now left|right; apply andb_true_iff in K as [K _]; now apply negb_true_iff]).
  assert (K2 : q = true \/ forallb (fun a => negb (query a)) m = true) by (destruct K as [K|K]; [now left|right; now apply andb_true_iff in K as [_ K]]).
  pose proof (same_step q a c d t K1 S) as Q.
  destruct (do_api a (Wd c t)) as [r [c1 t1]|], (do_api a (Wd d t)) as [r' [c2 t2]|]; try exact Q; try (exfalso; exact Q). destruct Q as (-> & Q & S1). cbn [w_tr w_ctx] in *. subst t2. specialize (IH c1 c2 t1 K2 S1).
  destruct (runs m (Wd c1 t1)) as [rs w1|], (runs m (Wd c2 t1)) as [rs' w2|]; try exact IH. destruct IH as (-> & Q & S2). now repeat split.
Qed.
Lemma methods_midway : forall x w r v, c_status (w_ctx w) <> SM_START -> do_api (AMethods x) w = Ret r v ->
  forall m, match runs m w, runs m v with
  | Ret q u, Ret q' u' => q = q' /\ w_tr u = w_tr u'
  | Ub x, Ub x' => x = x'
  | _, _ => False
  end.
Proof.
  intros x [c t] r v S H m. destruct (shape (AMethods x) eq_refl) as [f V]. rewrite V in H. injection H as _ <-. cbn [w_ctx w_tr] in *.
  assert (Q : same true c (if f (c_is_init c) =? OK then upd (AMethods x) c else c)).
  { destruct (f (c_is_init c) =? OK); [|now left]. destruct x as [l|]; [|now left]. right. split; [exact S|]. exists (blit (c_methods c) l), (zlen l), (c_csuites c), (c_csuite_len c). now repeat split. }
  pose proof (same_runs true m _ _ t (or_introl eq_refl) Q) as G. destruct (runs m (Wd c t)) as [p w1|], (runs m (Wd _ t)) as [p' w2|]; try exact G; [|now symmetry]. destruct G as (-> & -> & _). now split.
Qed.
Lemma suites_midway : forall x w r v, c_status (w_ctx w) <> SM_START -> do_api (ASuites x) w = Ret r v -> the_suite (w_ctx v) = the_suite (w_ctx w) ->
  forall m, forallb (fun a => negb (query a)) m = true -> match runs m w, runs m v with
  | Ret q u, Ret q' u' => q = q' /\ w_tr u = w_tr u'
  | Ub x, Ub x' => x = x'
  | _, _ => False
  end.
Proof.
  intros x [c t] r v S H T m K. destruct (shape (ASuites x) eq_refl) as [f V]. rewrite V in H. injection H as _ <-. cbn [w_ctx w_tr] in *.
  assert (Q : same false c (if f (c_is_init c) =? OK then upd (ASuites x) c else c)).
  { destruct (f (c_is_init c) =? OK); [|now left]. destruct x as [l|]; [|now left]. right. split; [exact S|]. exists (c_methods c), (c_method_len c), (blit (c_csuites c) l), (zlen l).
    split; [reflexivity|]. split; [exact T|]. discriminate. }
  pose proof (same_runs false m _ _ t (or_intror K) Q) as G. destruct (runs m (Wd c t)) as [p w1|], (runs m (Wd _ t)) as [p' w2|]; try exact G; [|now symmetry]. destruct G as (-> & -> & _). now split.
Qed.
Lemma suites_midway_in : forall x w r v, c_status (w_ctx w) <> SM_START -> do_api (ASuites x) w = Ret r v -> the_suite (w_ctx v) = the_suite (w_ctx w) ->
  forall m, (forall nn n p, ~ In (AErrSuites nn n p) m) -> match runs m w, runs m v with
  | Ret q u, Ret q' u' => q = q' /\ w_tr u = w_tr u'
  | Ub x, Ub x' => x = x'
  | _, _ => False
  end.
Proof.
  intros x w r v S H T m K. apply (suites_midway x w r v S H T). apply forallb_forall. intros a I. destruct a; try reflexivity. exfalso. exact (K _ _ _ I).
Qed.
End Runs.
