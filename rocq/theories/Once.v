(** How often a call signs, encrypts, and derives a MAC: at most once each.  No code of /repo is modelled here. *)
From Verif Require Import Monad Cbor CborGen Common Msg1 Msg2 Msg3 Msg4 Logic Frame CborProofs Steps.

(** An info with the label of a MAC, 2 or 6. *)
Definition is_mac (i : bytes) : bool := match i with x :: _ => (x =? 2) || (x =? 6) | [] => false end.
Definition telling (e : event) : bool :=
  match e with EvSign _ _ _ _ | EvEncrypt _ _ _ _ _ _ => true | EvExpand _ i _ _ _ => is_mac i | _ => false end.
(** The method and the message of a context. *)
Definition mm (c : ctx) : Z * Z := (c_message c, c_chosen_method c).
Definition mute {A} (m : M A) : Prop :=
  forall w, match m w with
            | Ret _ w' => mm (w_ctx w') = mm (w_ctx w) /\ exists e, w_tr w' = e ++ w_tr w /\ filter telling e = []
            | Ub _ => True end.
Definition upto (P : event -> bool) (n : nat) {A} (m : M A) : Prop :=
  forall w, match m w with
            | Ret _ w' => exists e, w_tr w' = e ++ w_tr w /\ (length (filter P e) <= n)%nat
            | Ub _ => True end.
Lemma enc_int_some : forall l, enc_int l <> [].
Proof. intros l. unfold enc_int. destruct (l <? 0); unfold enc_head; repeat match goal with |- (if ?b then _ else _) <> _ => destruct b end; discriminate. Qed.
Lemma fits_label : forall n l c k i, fits n (enc_info l c k) = Some i -> is_mac i = is_mac (enc_int l).
Proof.
  intros n l c k i F. apply fits_some in F as [-> _]. unfold enc_info. pose proof (enc_int_some l). destruct (enc_int l); [congruence|reflexivity].
Qed.

Create HintDb mu discriminated.
#[export] Hint Constants Opaque : mu.
#[export] Hint Transparent bytes M : mu.
Lemma bind_m : forall A B (m : M A) (k : A -> M B), mute m -> (forall a, mute (k a)) -> mute (bind m k).
Proof.
  intros A B m k H1 H2 w. specialize (H1 w). unfold bind. destruct (m w) as [a w1|]; [|exact I].
  destruct H1 as (K1 & e1 & T1 & F1). specialize (H2 a w1). destruct (k a w1) as [b w2|]; [|exact I].
  destruct H2 as (K2 & e2 & T2 & F2). split; [congruence|]. exists (e2 ++ e1). rewrite T2, T1, filter_app, F1, F2. split; [apply app_assoc|reflexivity].
Qed.
Lemma ret_m : forall A (a : A), mute (ret a). Proof. intros A a w. split; [reflexivity|]. now exists []. Qed.
Lemma getc_m : mute getc. Proof. intro w. split; [reflexivity|]. now exists []. Qed.
Lemma trace_m : mute trace. Proof. intro w. split; [reflexivity|]. now exists []. Qed.
Lemma modify_m : forall f, (forall c, mm (f c) = mm c) -> mute (modify f). Proof. intros f H w. split; [apply H|]. now exists []. Qed.
Lemma fault_m : forall A u, mute (@fault A u). Proof. intros A u w. exact I. Qed.
Lemma check_m : forall b u, mute (check b u). Proof. intros [] u w; [split; [reflexivity|]; now exists []|exact I]. Qed.
Lemma need_m : forall A (o : option A) u, mute (need o u). Proof. intros A [a|] u w; [split; [reflexivity|]; now exists []|exact I]. Qed.
Lemma emit_m : forall e, telling e = false -> mute (emit e).
Proof. intros e H w. split; [reflexivity|]. exists [e]. split; [reflexivity|]. cbn [filter]. now rewrite H. Qed.
#[export] Hint Resolve ret_m getc_m trace_m fault_m check_m need_m : mu.
#[export] Hint Extern 1 (mute (emit _)) => (apply emit_m; reflexivity) : mu.
#[export] Hint Extern 1 (mute (modify _)) => (apply modify_m; intro; reflexivity) : mu.
Ltac m_step :=
  lazymatch goal with
  | |- mute (bind _ _) => apply bind_m; [|intro]
  | |- mute (if ?b then _ else _) => split_bool b
  | |- mute (match ?x with _ => _ end) => destruct x
  | |- mute (let _ := _ in _) => cbv zeta
  | |- mute ((fun _ => _) _) => cbv beta
  | |- mute _ => solve [auto 2 with mu nocore]
  end.
Ltac m_auto := repeat m_step.

Section Mute.
Context {E : env}.
Lemma alloc_m : forall b n, mute (alloc b n). Proof. intros. unfold alloc. m_auto. Qed.
Lemma free_m : forall b, mute (free b). Proof. intros. unfold free. m_auto. Qed.
Lemma import_m : forall a b, mute (call_import a b). Proof. intros. unfold call_import. m_auto. Qed.
Lemma destroy_m : forall a, mute (call_destroy a). Proof. intros. unfold call_destroy. m_auto. Qed.
Lemma mkpair_m : forall a b c, mute (call_mkpair a b c). Proof. intros. unfold call_mkpair, out_ok. m_auto. Qed.
Lemma agree_m : forall a b c, mute (call_agree a b c). Proof. intros. unfold call_agree, out_ok. m_auto. Qed.
Lemma verify_m : forall a b c, mute (call_verify a b c). Proof. intros. unfold call_verify, out_ok. m_auto. Qed.
Lemma extract_m : forall a b c, mute (call_extract a b c). Proof. intros. unfold call_extract, out_ok. m_auto. Qed.
Lemma decrypt_m : forall a b c d n, mute (call_decrypt a b c d n). Proof. intros. unfold call_decrypt, out_ok. m_auto. Qed.
Lemma hash_m : forall a b, mute (call_hash a b). Proof. intros. unfold call_hash, out_ok. m_auto. Qed.
Lemma expand_m : forall k i n, is_mac i = false -> mute (call_expand k i n).
Proof. intros k i n H. unfold call_expand, out_ok. m_auto; apply emit_m; exact H. Qed.
Lemma fetch_m : mute call_fetch. Proof. intros. unfold call_fetch. m_auto. Qed.
Lemma cverify_m : forall c, mute (call_cverify c). Proof. intros. unfold call_cverify. m_auto. Qed.
Lemma compose_m : forall a b n, mute (call_compose a b n). Proof. intros. unfold call_compose. m_auto. Qed.
Lemma process_m : forall a b n, mute (call_process a b n). Proof. intros. unfold call_process. m_auto. Qed.
#[local] Hint Resolve alloc_m free_m import_m destroy_m mkpair_m agree_m verify_m extract_m decrypt_m hash_m fetch_m cverify_m compose_m process_m : mu.
Lemma ead_compose_m : mute ead_compose. Proof. unfold ead_compose. m_auto. Qed.
Lemma ead_process_m : mute ead_process. Proof. unfold ead_process. m_auto. Qed.
#[local] Hint Resolve ead_compose_m ead_process_m : mu.
Lemma frees_m : forall l, mute (frees l).
Proof. induction l; cbn [frees]; m_auto. Qed.
#[local] Hint Resolve frees_m : mu.
Lemma rd_m : forall a b c, mute (rd a b c).
Proof. intros. unfold rd. m_auto. Qed.
#[local] Hint Resolve rd_m : mu.
Lemma rd_ptr_m : forall a b, mute (rd_ptr a b).
Proof. intros. unfold rd_ptr. m_auto. Qed.
#[local] Hint Resolve rd_ptr_m : mu.
Lemma rd_tok_m : forall a b, mute (rd_tok a b).
Proof. intros. unfold rd_tok. m_auto. Qed.
#[local] Hint Resolve rd_tok_m : mu.
Lemma get_suite_m : mute get_suite.
Proof. intros. unfold get_suite. m_auto. Qed.
#[local] Hint Resolve get_suite_m : mu.
Lemma get_th_m : mute get_th.
Proof. intros. unfold get_th. m_auto. Qed.
#[local] Hint Resolve get_th_m : mu.
Lemma get_prk_m : mute get_prk.
Proof. intros. unfold get_prk. m_auto. Qed.
#[local] Hint Resolve get_prk_m : mu.
Lemma get_dh_pub_m : mute get_dh_pub.
Proof. intros. unfold get_dh_pub. m_auto. Qed.
#[local] Hint Resolve get_dh_pub_m : mu.
Lemma get_dh_priv_m : mute get_dh_priv.
Proof. intros. unfold get_dh_priv. m_auto. Qed.
#[local] Hint Resolve get_dh_priv_m : mu.
Lemma get_dh_peer_m : mute get_dh_peer.
Proof. intros. unfold get_dh_peer. m_auto. Qed.
#[local] Hint Resolve get_dh_peer_m : mu.
Lemma get_dh_secret_m : mute get_dh_secret.
Proof. intros. unfold get_dh_secret. m_auto. Qed.
#[local] Hint Resolve get_dh_secret_m : mu.
Lemma put_th_m : forall x, mute (put_th x).
Proof. intros. unfold put_th, wr. m_auto. Qed.
#[local] Hint Resolve put_th_m : mu.
Lemma put_prk_m : forall x, mute (put_prk x).
Proof. intros. unfold put_prk, wr. m_auto. Qed.
#[local] Hint Resolve put_prk_m : mu.
Lemma put_dh_pub_m : forall x, mute (put_dh_pub x).
Proof. intros. unfold put_dh_pub, wr. m_auto. Qed.
#[local] Hint Resolve put_dh_pub_m : mu.
Lemma put_dh_priv_m : forall x, mute (put_dh_priv x).
Proof. intros. unfold put_dh_priv, wr. m_auto. Qed.
#[local] Hint Resolve put_dh_priv_m : mu.
Lemma put_dh_peer_m : forall x, mute (put_dh_peer x).
Proof. intros. unfold put_dh_peer, wr. m_auto. Qed.
#[local] Hint Resolve put_dh_peer_m : mu.
Lemma put_dh_secret_m : forall x, mute (put_dh_secret x).
Proof. intros. unfold put_dh_secret, wr. m_auto. Qed.
#[local] Hint Resolve put_dh_secret_m : mu.
Lemma comp_id_cred_len_m : forall cr, mute (comp_id_cred_len cr).
Proof. intros. unfold comp_id_cred_len. m_auto. Qed.
#[local] Hint Resolve comp_id_cred_len_m : mu.
Lemma comp_cred_len_m : forall cr, mute (comp_cred_len cr).
Proof. intros. unfold comp_cred_len. m_auto. Qed.
#[local] Hint Resolve comp_cred_len_m : mu.
Lemma read_toks_m : forall p l, mute (read_toks p l).
Proof. induction l; cbn [read_toks]; m_auto. Qed.
#[local] Hint Resolve read_toks_m : mu.
Lemma encode_tokens_m : forall p n l, mute (encode_tokens p n l).
Proof. intros. unfold encode_tokens. m_auto. Qed.
#[local] Hint Resolve encode_tokens_m : mu.
Lemma kid_compact_m : forall cr, mute (kid_compact_encoding cr).
Proof. intros. unfold kid_compact_encoding. m_auto. Qed.
#[local] Hint Resolve kid_compact_m : mu.
Lemma id_cred_of_m : forall cr, mute (id_cred_of cr).
Proof. intros. unfold id_cred_of. m_auto. Qed.
#[local] Hint Resolve id_cred_of_m : mu.
Lemma cred_bytes_m : forall cr n, mute (cred_bytes cr n).
Proof. intros. unfold cred_bytes. m_auto. Qed.
#[local] Hint Resolve cred_bytes_m : mu.
Lemma comp_mac_context_length_m : forall cr, mute (comp_mac_context_length cr).
Proof. intros. unfold comp_mac_context_length. m_auto. Qed.
#[local] Hint Resolve comp_mac_context_length_m : mu.
Lemma comp_mac_context_m : forall cr n, mute (comp_mac_context cr n).
Proof. intros. unfold comp_mac_context. m_auto. Qed.
#[local] Hint Resolve comp_mac_context_m : mu.
Lemma comp_mac_length_m : mute comp_mac_length.
Proof. intros. unfold comp_mac_length. m_auto. Qed.
#[local] Hint Resolve comp_mac_length_m : mu.
Lemma comp_sign_or_mac_length_m : mute comp_sign_or_mac_length.
Proof. intros. unfold comp_sign_or_mac_length. m_auto. Qed.
#[local] Hint Resolve comp_sign_or_mac_length_m : mu.
Lemma verify_cose_sign_1_m : forall m a b c, mute (verify_cose_sign_1 m a b c).
Proof. intros. unfold verify_cose_sign_1. m_auto. Qed.
#[local] Hint Resolve verify_cose_sign_1_m : mu.
Lemma verify_sign_or_mac_m : forall m a b c, mute (verify_sign_or_mac m a b c).
Proof. intros. unfold verify_sign_or_mac. m_auto. Qed.
#[local] Hint Resolve verify_sign_or_mac_m : mu.
Lemma hash_into_th_m : forall n i, mute (hash_into_th n i).
Proof. intros. unfold hash_into_th. m_auto. Qed.
#[local] Hint Resolve hash_into_th_m : mu.
Lemma kdf_m : forall x len l cx k n, is_mac (enc_int l) = false -> mute cx -> mute k -> mute (kdf x len l cx k n).
Proof. intros x len l cx k n HL H1 H2. unfold kdf. apply bind_m; [m_auto|intros ok]. destruct (negb ok); [m_auto|].
  apply bind_m; [exact H1|intros c]. destruct (fits _ _) as [i|] eqn:F; [|m_auto]. apply fits_label in F. rewrite HL in F.
  m_auto; apply expand_m; exact F. Qed.
Lemma gen_dh_keys_m : mute gen_dh_keys.
Proof. intros. unfold gen_dh_keys. m_auto. Qed.
#[local] Hint Resolve gen_dh_keys_m : mu.
Lemma comp_dh_secret_m : mute comp_dh_secret.
Proof. intros. unfold comp_dh_secret. m_auto. Qed.
#[local] Hint Resolve comp_dh_secret_m : mu.
Lemma comp_th_2_m : mute comp_th_2.
Proof. intros. unfold comp_th_2. m_auto. Qed.
#[local] Hint Resolve comp_th_2_m : mu.
Lemma comp_prk_2e_m : mute comp_prk_2e.
Proof. intros. unfold comp_prk_2e. m_auto. Qed.
#[local] Hint Resolve comp_prk_2e_m : mu.
Lemma kdf_th_m : forall x len l n, is_mac (enc_int l) = false -> mute (kdf x len l get_th get_prk n).
Proof. intros. apply kdf_m; [assumption|auto with mu|auto with mu]. Qed.
#[local] Hint Extern 1 (mute (kdf _ _ _ _ _ _)) => (apply kdf_th_m; reflexivity) : mu.
Lemma comp_salt_3e2m_m : forall n, mute (comp_salt_3e2m n).
Proof. intros. unfold comp_salt_3e2m. m_auto. Qed.
#[local] Hint Resolve comp_salt_3e2m_m : mu.
Lemma agree_eph_m : forall p n, mute (agree_eph p n).
Proof. intros. unfold agree_eph. m_auto. Qed.
#[local] Hint Resolve agree_eph_m : mu.
Lemma agree_static_m : forall p n, mute (agree_static p n).
Proof. intros. unfold agree_static. m_auto. Qed.
#[local] Hint Resolve agree_static_m : mu.
Lemma comp_grx_m : forall a b n, mute (comp_grx a b n).
Proof. intros. unfold comp_grx. m_auto. Qed.
#[local] Hint Resolve comp_grx_m : mu.
Lemma prk_static_m : forall s g n, (forall k, mute (s k)) -> (forall k, mute (g k)) -> mute (prk_static s g n).
Proof. intros s g n H1 H2. unfold prk_static. m_auto. Qed.
#[local] Hint Resolve prk_static_m : mu.
Lemma comp_prk_3e2m_m : forall a b, mute (comp_prk_3e2m a b).
Proof. intros. unfold comp_prk_3e2m. m_auto; apply prk_static_m; intros; auto with mu. Qed.
#[local] Hint Resolve comp_prk_3e2m_m : mu.
Lemma comp_plaintext_len_m : forall m n, mute (comp_plaintext_len m n).
Proof. intros. unfold comp_plaintext_len. m_auto. Qed.
#[local] Hint Resolve comp_plaintext_len_m : mu.
Lemma fill_plaintext_m : forall a b c n, mute (fill_plaintext a b c n).
Proof. intros. unfold fill_plaintext. m_auto. Qed.
#[local] Hint Resolve fill_plaintext_m : mu.
Lemma prepare_plaintext_2_m : forall a b n, mute (prepare_plaintext_2 a b n).
Proof. intros. unfold prepare_plaintext_2. m_auto. Qed.
#[local] Hint Resolve prepare_plaintext_2_m : mu.
Lemma kdf_ks_m : forall x len l k n, is_mac (enc_int l) = false -> mute (kdf x len l get_th (ret k) n).
Proof. intros. apply kdf_m; [assumption|auto with mu|auto with mu]. Qed.
#[local] Hint Extern 1 (mute (kdf _ _ _ _ _ _)) => (apply kdf_ks_m; reflexivity) : mu.
Lemma comp_keystream_m : forall a n, mute (comp_keystream a n).
Proof. intros. unfold comp_keystream. m_auto. Qed.
#[local] Hint Resolve comp_keystream_m : mu.
Lemma prepare_message_2_m : forall a n, mute (prepare_message_2 a n).
Proof. intros. unfold prepare_message_2. m_auto. Qed.
#[local] Hint Resolve prepare_message_2_m : mu.
Lemma comp_ciphertext_2_len_m : forall m, mute (comp_ciphertext_2_len m).
Proof. intros. unfold comp_ciphertext_2_len. m_auto. Qed.
#[local] Hint Resolve comp_ciphertext_2_len_m : mu.
Lemma parse_msg_2_m : forall m n, mute (parse_msg_2 m n).
Proof. intros. unfold parse_msg_2. m_auto. Qed.
#[local] Hint Resolve parse_msg_2_m : mu.
Lemma parse_id_cred_m : forall b i, mute (parse_id_cred b i).
Proof. intros. unfold parse_id_cred. m_auto. Qed.
#[local] Hint Resolve parse_id_cred_m : mu.
Lemma store_tokens_m : forall l, mute (store_tokens l).
Proof. intros. unfold store_tokens. m_auto. Qed.
#[local] Hint Resolve store_tokens_m : mu.
Lemma store_peer_cid_m : forall l, mute (store_peer_cid l).
Proof. intros. unfold store_peer_cid. m_auto. Qed.
#[local] Hint Resolve store_peer_cid_m : mu.
Lemma parse_plaintext_2_m : forall p, mute (parse_plaintext_2 p).
Proof. intros. unfold parse_plaintext_2. m_auto. Qed.
#[local] Hint Resolve parse_plaintext_2_m : mu.
Lemma comp_th_next_m : forall a b s m p, mute (comp_th_next a b s m p).
Proof. intros. unfold comp_th_next. m_auto. Qed.
#[local] Hint Resolve comp_th_next_m : mu.
Lemma comp_th_3_m : forall m p, mute (comp_th_3 m p).
Proof. intros. apply comp_th_next_m. Qed.
#[local] Hint Resolve comp_th_3_m : mu.
Lemma comp_salt_4e3m_m : forall n, mute (comp_salt_4e3m n).
Proof. intros. unfold comp_salt_4e3m. m_auto. Qed.
#[local] Hint Resolve comp_salt_4e3m_m : mu.
Lemma comp_giy_m : forall a b n, mute (comp_giy a b n).
Proof. intros. unfold comp_giy. m_auto. Qed.
#[local] Hint Resolve comp_giy_m : mu.
Lemma comp_prk_4e3m_m : forall a b, mute (comp_prk_4e3m a b).
Proof. intros. unfold comp_prk_4e3m. m_auto; apply prk_static_m; intros; auto with mu. Qed.
#[local] Hint Resolve comp_prk_4e3m_m : mu.
Lemma prepare_plaintext_3_m : forall a b n, mute (prepare_plaintext_3 a b n).
Proof. intros. unfold prepare_plaintext_3. m_auto. Qed.
#[local] Hint Resolve prepare_plaintext_3_m : mu.
Lemma expand_part_m : forall a b n, is_mac (enc_int b) = false -> mute (expand_part a b n).
Proof. intros a b n HL. unfold expand_part. apply bind_m; [m_auto|intros c]. destruct (fits _ _) as [i|] eqn:F; [|m_auto].
  apply fits_label in F. rewrite HL in F. m_auto; apply expand_m; exact F. Qed.
Lemma key_iv_aad_m : forall a b n, is_mac (enc_int a) = false -> is_mac (enc_int b) = false -> mute (key_iv_aad a b n).
Proof. intros a b n H1 H2. unfold key_iv_aad. m_auto; now apply expand_part_m. Qed.
#[local] Hint Extern 1 (mute (key_iv_aad _ _ _)) => (apply key_iv_aad_m; reflexivity) : mu.
Lemma comp_key_iv_aad_3_m : forall a b n, mute (comp_key_iv_aad_3 a b n).
Proof. intros. unfold comp_key_iv_aad_3. m_auto. Qed.
#[local] Hint Resolve comp_key_iv_aad_3_m : mu.
Lemma aead_decrypt_m : forall a b c d n, mute (aead_decrypt a b c d n).
Proof. intros. unfold aead_decrypt. m_auto. Qed.
#[local] Hint Resolve aead_decrypt_m : mu.
Lemma decrypt_ciphertext_3_m : forall a b c d n, mute (decrypt_ciphertext_3 a b c d n).
Proof. intros. unfold decrypt_ciphertext_3. m_auto. Qed.
#[local] Hint Resolve decrypt_ciphertext_3_m : mu.
Lemma comp_th_4_m : forall m p, mute (comp_th_4 m p).
Proof. intros. apply comp_th_next_m. Qed.
#[local] Hint Resolve comp_th_4_m : mu.
Lemma gen_msg_3_m : forall a n, mute (gen_msg_3 a n).
Proof. intros. unfold gen_msg_3. m_auto. Qed.
#[local] Hint Resolve gen_msg_3_m : mu.
Lemma parse_plaintext_3_m : forall p, mute (parse_plaintext_3 p).
Proof. intros. unfold parse_plaintext_3. m_auto. Qed.
#[local] Hint Resolve parse_plaintext_3_m : mu.
Lemma prepare_plaintext_4_m : forall n, mute (prepare_plaintext_4 n).
Proof. intros. unfold prepare_plaintext_4. m_auto. Qed.
#[local] Hint Resolve prepare_plaintext_4_m : mu.
Lemma compute_key_iv_aad_4_m : forall a b n, mute (compute_key_iv_aad_4 a b n).
Proof. intros. unfold compute_key_iv_aad_4. m_auto. Qed.
#[local] Hint Resolve compute_key_iv_aad_4_m : mu.
End Mute.
#[export] Hint Resolve alloc_m free_m import_m destroy_m mkpair_m agree_m verify_m extract_m decrypt_m hash_m fetch_m cverify_m compose_m process_m ead_compose_m ead_process_m frees_m rd_m rd_ptr_m rd_tok_m get_suite_m get_th_m get_prk_m get_dh_pub_m get_dh_priv_m get_dh_peer_m get_dh_secret_m put_th_m put_prk_m put_dh_pub_m put_dh_priv_m put_dh_peer_m put_dh_secret_m comp_id_cred_len_m comp_cred_len_m read_toks_m encode_tokens_m kid_compact_m id_cred_of_m cred_bytes_m comp_mac_context_length_m comp_mac_context_m comp_mac_length_m comp_sign_or_mac_length_m verify_cose_sign_1_m verify_sign_or_mac_m hash_into_th_m gen_dh_keys_m comp_dh_secret_m comp_th_2_m comp_prk_2e_m comp_salt_3e2m_m agree_eph_m agree_static_m comp_grx_m prk_static_m comp_prk_3e2m_m comp_plaintext_len_m fill_plaintext_m prepare_plaintext_2_m comp_keystream_m prepare_message_2_m comp_ciphertext_2_len_m parse_msg_2_m parse_id_cred_m store_tokens_m store_peer_cid_m parse_plaintext_2_m comp_th_next_m comp_th_3_m comp_salt_4e3m_m comp_giy_m comp_prk_4e3m_m prepare_plaintext_3_m comp_key_iv_aad_3_m aead_decrypt_m decrypt_ciphertext_3_m comp_th_4_m gen_msg_3_m parse_plaintext_3_m prepare_plaintext_4_m compute_key_iv_aad_4_m : mu.
#[export] Hint Extern 1 (mute (kdf _ _ _ _ _ _)) => (apply kdf_th_m; reflexivity) : mu.
#[export] Hint Extern 1 (mute (kdf _ _ _ _ _ _)) => (apply kdf_ks_m; reflexivity) : mu.
#[export] Hint Extern 1 (mute (key_iv_aad _ _ _)) => (apply key_iv_aad_m; reflexivity) : mu.

(** ** Counting *)
Inductive kind := KSign | KMac | KSeal.
Definition of_kind (k : kind) (e : event) : bool :=
  match k, e with
  | KSign, EvSign _ _ _ _ | KSeal, EvEncrypt _ _ _ _ _ _ => true
  | KMac, EvExpand _ i _ _ _ => is_mac i
  | _, _ => false
  end.
Section Upto.
Context {E : env}.
Variable k : kind.
Notation up := (upto (of_kind k)).
Lemma bind_u : forall a b n A B (m : M A) (f : A -> M B), up a m -> (forall x, up b (f x)) -> (a + b <= n)%nat -> up n (bind m f).
Proof.
  intros a b n A B m f H1 H2 Hn w. specialize (H1 w). unfold bind. destruct (m w) as [x w1|]; [|exact I].
  destruct H1 as (e1 & T1 & F1). specialize (H2 x w1). destruct (f x w1) as [y w2|]; [|exact I].
  destruct H2 as (e2 & T2 & F2). exists (e2 ++ e1). rewrite T2, T1, filter_app, app_length. split; [apply app_assoc|lia].
Qed.
Lemma bind_u0 : forall n A B (m : M A) (f : A -> M B), up 0 m -> (forall x, up n (f x)) -> up n (bind m f).
Proof. intros n A B m f H1 H2. now apply (bind_u 0 n). Qed.
Lemma mute_u : forall A (m : M A) n, mute m -> up n m.
Proof.
  intros A m n H w. specialize (H w). destruct (m w) as [a w'|]; [|exact I]. destruct H as (_ & e & T & F). exists e. split; [exact T|].
  replace (filter (of_kind k) e) with (@nil event); [apply Nat.le_0_l|]. symmetry. clear T.
  induction e as [|x e IH]; [reflexivity|]. cbn [filter] in *. destruct (of_kind k x) eqn:K.
  - assert (telling x = true) by (destruct k, x; try discriminate K; try reflexivity; exact K). rewrite H in F. discriminate.
  - destruct (telling x); [discriminate|]. now apply IH.
Qed.
Lemma modify_u : forall f n, up n (modify f).
Proof. intros f n w. exists []. split; [reflexivity|apply Nat.le_0_l]. Qed.
Lemma emit_u : forall e n, ((if of_kind k e then 1 else 0) <= n)%nat -> up n (emit e).
Proof. intros e n H w. exists [e]. split; [reflexivity|]. cbn [filter]. destruct (of_kind k e); cbn [length]; lia. Qed.
End Upto.
Ltac u_leaf := first [ apply modify_u | apply emit_u; cbn [of_kind]; solve [lia | destruct (is_mac _); lia] | solve [auto 2 with ut nocore] ].
Ltac u_all :=
  lazymatch goal with
  | |- upto _ _ (bind _ _) =>
      first [ apply bind_u0; [solve [apply mute_u; m_auto | u_all]|intro; u_all]
            | apply (bind_u _ 1%nat 0%nat _); [solve [u_all]|intro; u_all|apply le_n] ]
  | |- upto _ _ (if ?b then _ else _) => split_bool b; u_all
  | |- upto _ _ (match ?x with _ => _ end) => destruct x; u_all
  | |- upto _ _ (let _ := _ in _) => cbv zeta; u_all
  | |- upto _ _ _ => first [apply mute_u; solve [m_auto] | u_leaf]
  end.

Create HintDb ut.
Section Calls.
Context {E : env}.
Definition sign_n k : nat := match k with KSign => 1 | _ => 0 end.
Definition mac_n k : nat := match k with KMac => 1 | _ => 0 end.
Definition seal_n k : nat := match k with KSeal => 1 | _ => 0 end.
Lemma sign_u : forall k a b n, upto (of_kind k) (sign_n k) (call_sign a b n).
Proof. intros [] a b n; unfold call_sign, out_ok, sign_n; u_all. Qed.
Lemma encrypt_u : forall k a b c d n, upto (of_kind k) (seal_n k) (call_encrypt a b c d n).
Proof. intros [] a b c d n; unfold call_encrypt, out_ok, seal_n; u_all. Qed.
Lemma expand_u : forall k a b n, upto (of_kind k) (mac_n k) (call_expand a b n).
Proof. intros [] a b n; unfold call_expand, out_ok, mac_n; u_all. Qed.
#[local] Hint Extern 1 (upto _ _ (call_sign _ _ _)) => (apply sign_u) : ut.
#[local] Hint Extern 1 (upto _ _ (call_encrypt _ _ _ _ _)) => (apply encrypt_u) : ut.
#[local] Hint Extern 1 (upto _ _ (call_expand _ _ _)) => (apply expand_u) : ut.
Lemma comp_mac_u : forall k m n, upto (of_kind k) (mac_n k) (comp_mac m n).
Proof. intros [] m n; unfold comp_mac, mac_n; u_all. Qed.
Lemma cose_u : forall k a b c n, upto (of_kind k) (sign_n k) (sign_cose_sign_1 a b c n).
Proof. intros [] a b c n; unfold sign_cose_sign_1, sign_n; u_all. Qed.
#[local] Hint Extern 1 (upto _ _ (sign_cose_sign_1 _ _ _ _)) => (apply cose_u) : ut.
Lemma sign_or_mac_u : forall k a b c n, upto (of_kind k) (sign_n k) (comp_sign_or_mac a b c n).
Proof. intros [] a b c n; unfold comp_sign_or_mac, sign_n; u_all. Qed.
Lemma aead_u : forall k a b c d n, upto (of_kind k) (seal_n k) (aead_encrypt a b c d n).
Proof. intros [] a b c d n; unfold aead_encrypt, seal_n; u_all. Qed.
#[local] Hint Extern 1 (upto _ _ (comp_mac _ _)) => (apply comp_mac_u) : ut.
#[local] Hint Extern 1 (upto _ _ (comp_sign_or_mac _ _ _ _)) => (apply sign_or_mac_u) : ut.
#[local] Hint Extern 1 (upto _ _ (aead_encrypt _ _ _ _ _)) => (apply aead_u) : ut.
Lemma ciphertext_u : forall k a b c d n, upto (of_kind k) (seal_n k) (comp_ciphertext a b c d n).
Proof. intros [] a b c d n; unfold comp_ciphertext, seal_n; u_all. Qed.
#[local] Hint Extern 1 (upto _ _ (comp_ciphertext _ _ _ _ _)) => (apply ciphertext_u) : ut.
Lemma compose_2_u : forall k nn n, upto (of_kind k) (sign_n k + mac_n k) (message_2_compose nn n).
Proof. intros [] nn n; unfold message_2_compose, enter, fail, sign_n, mac_n; cbn [Nat.add]; u_all. Qed.
Lemma compose_3_u : forall k nn n, upto (of_kind k) 1 (message_3_compose nn n).
Proof. intros [] nn n; unfold message_3_compose, enter, fail; u_all. Qed.
Lemma compose_4_u : forall k nn n, upto (of_kind k) (seal_n k) (message_4_compose nn n).
Proof. intros [] nn n; unfold message_4_compose, enter, fail, seal_n; u_all. Qed.

(** ** No signature with static Diffie-Hellman *)
(** [m] keeps method and message and, when they do not ask for a signature, signs nothing. *)
Definition unsigned {A} (m : M A) : Prop :=
  forall w, signs (c_message (w_ctx w)) (c_chosen_method (w_ctx w)) <> Some true ->
    match m w with
    | Ret _ w' => mm (w_ctx w') = mm (w_ctx w) /\ exists e, w_tr w' = e ++ w_tr w /\ filter (of_kind KSign) e = []
    | Ub _ => True end.
Lemma bind_n : forall A B (m : M A) (f : A -> M B), unsigned m -> (forall x, unsigned (f x)) -> unsigned (bind m f).
Proof.
  intros A B m f H1 H2 w HS. specialize (H1 w HS). unfold bind. destruct (m w) as [x w1|]; [|exact I].
  destruct H1 as (K1 & e1 & T1 & F1). specialize (H2 x w1). destruct (f x w1) as [y w2|]; [|exact I].
  destruct H2 as (K2 & e2 & T2 & F2).
  { unfold mm in K1. injection K1 as K1 K1'. now rewrite K1, K1'. }
  split; [congruence|]. exists (e2 ++ e1). rewrite T2, T1, filter_app, F1, F2. split; [apply app_assoc|reflexivity].
Qed.
Lemma mute_n : forall A (m : M A), mute m -> unsigned m.
Proof.
  intros A m H w _. pose proof (mute_u KSign A m 0 H w) as U. specialize (H w). destruct (m w) as [a w'|]; [|exact I].
  destruct H as (K & e & T & _). split; [exact K|]. exists e. split; [exact T|]. destruct U as (e' & T' & L). rewrite T in T'. apply app_inv_tail in T'. subst e'.
  destruct (filter (of_kind KSign) e); [reflexivity|cbn [length] in L; lia].
Qed.
Lemma emit_n : forall e, of_kind KSign e = false -> unsigned (emit e).
Proof. intros e H w _. split; [reflexivity|]. exists [e]. split; [reflexivity|]. cbn [filter]. now rewrite H. Qed.
Create HintDb un.
Ltac n_all :=
  lazymatch goal with
  | |- unsigned (bind _ _) => apply bind_n; [solve [apply mute_n; m_auto | n_all]|intro; n_all]
  | |- unsigned (if ?b then _ else _) => split_bool b; n_all
  | |- unsigned (match ?x with _ => _ end) => destruct x; n_all
  | |- unsigned (let _ := _ in _) => cbv zeta; n_all
  | |- unsigned _ => first [apply mute_n; solve [m_auto] | apply emit_n; reflexivity | solve [auto 2 with un nocore]]
  end.
Lemma encrypt_n : forall a b c d n, unsigned (call_encrypt a b c d n).
Proof. intros a b c d n; unfold call_encrypt, out_ok; n_all. Qed.
Lemma expand_n : forall a b n, unsigned (call_expand a b n).
Proof. intros a b n; unfold call_expand, out_ok; n_all. Qed.
#[local] Hint Resolve encrypt_n expand_n : un.
Lemma comp_mac_n : forall m n, unsigned (comp_mac m n).
Proof. intros m n; unfold comp_mac; n_all. Qed.
Lemma sign_or_mac_n : forall a b c n, unsigned (comp_sign_or_mac a b c n).
Proof.
  intros a b c n w HS. unfold comp_sign_or_mac. destruct ((zlen c =? 0) || (n =? 0)); [apply mute_n; [apply ret_m|exact HS]|].
  unfold bind, getc. destruct w as [cc t]. cbn [w_ctx] in HS |- *. pose proof HS as HS'.
  destruct (signs (c_message cc) (c_chosen_method cc)) as [[|]|] eqn:Q; [congruence| |].
  - refine ((_ : unsigned (check (zlen c <=? n) UbWrite;;; ret (OK, c))) (Wd cc t) _); [n_all|cbn [w_ctx]; rewrite Q; exact HS].
  - refine ((_ : unsigned (if ((c_message cc =? MSG_2) || (c_message cc =? MSG_3)) && (c_chosen_method cc =? METHOD_MAX)
      then ret (E_NOT_PERMITTED, []) else ret (E_BAD_STATE, []))) (Wd cc t) _); [n_all|cbn [w_ctx]; rewrite Q; exact HS].
Qed.
Lemma aead_n : forall a b c d n, unsigned (aead_encrypt a b c d n).
Proof. intros a b c d n; unfold aead_encrypt; n_all. Qed.
#[local] Hint Resolve comp_mac_n sign_or_mac_n aead_n : un.
Lemma ciphertext_n : forall a b c d n, unsigned (comp_ciphertext a b c d n).
Proof. intros a b c d n; unfold comp_ciphertext; n_all. Qed.
#[local] Hint Resolve ciphertext_n : un.
(** After [enter] the rest signs nothing. *)
Lemma enter_n : forall A msg role (k : M A) w, signs msg (c_chosen_method (w_ctx w)) <> Some true -> unsigned k ->
  match (enter msg role ;;; k) w with
  | Ret _ w' => exists e, w_tr w' = e ++ w_tr w /\ filter (of_kind KSign) e = []
  | Ub _ => True end.
Proof.
  intros A msg role k [c t] HS K. unfold enter, bind, modify. cbn [w_ctx w_tr] in *.
  match goal with |- match k ?w with _ => _ end => specialize (K w HS); destruct (k w) end; [|exact I]. apply K.
Qed.
Lemma compose_2_n : forall nn n c t m c' e, message_2_compose nn n (Wd c t) = Ret (OK, m) (Wd c' (e ++ t)) ->
  signs MSG_2 (c_chosen_method c) <> Some true -> filter (of_kind KSign) e = [].
Proof.
  intros nn n c t m c' e H HS. unfold message_2_compose in H. destruct (negb nn || (n =? 0)); [discriminate|].
  unfold bind at 1, getc at 1 in H. cbn [w_ctx] in H. destruct (negb _) in H; [discriminate|].
  match type of H with (enter ?a ?b ;;; ?k) ?w = _ =>
    pose proof (enter_n _ a b k w HS) as Q; rewrite H in Q; destruct Q as (e' & T & F) end.
  - unfold fail. n_all.
  - cbn [w_tr] in T. apply app_inv_tail in T. now subst e'.
Qed.
Lemma compose_3_n : forall nn n c t m c' e, message_3_compose nn n (Wd c t) = Ret (OK, m) (Wd c' (e ++ t)) ->
  signs MSG_3 (c_chosen_method c) <> Some true -> filter (of_kind KSign) e = [].
Proof.
  intros nn n c t m c' e H HS. unfold message_3_compose in H. destruct (negb nn || (n =? 0)); [discriminate|].
  unfold bind at 1, getc at 1 in H. cbn [w_ctx] in H. destruct (negb _) in H; [discriminate|].
  match type of H with (enter ?a ?b ;;; ?k) ?w = _ =>
    pose proof (enter_n _ a b k w HS) as Q; rewrite H in Q; destruct Q as (e' & T & F) end.
  - unfold fail. n_all.
  - cbn [w_tr] in T. apply app_inv_tail in T. now subst e'.
Qed.
End Calls.
(** Two events of a kind that occurs at most once are the same. *)
Lemma upto_one : forall k A (m : M A) w a w' e x y, upto (of_kind k) 1 m -> m w = Ret a w' -> w_tr w' = e ++ w_tr w ->
  In x e -> In y e -> of_kind k x = true -> of_kind k y = true -> x = y.
Proof.
  intros k A m w a w' e x y H R T X Y KX KY. specialize (H w). rewrite R in H. destruct H as (e' & T' & L).
  rewrite T in T'. apply app_inv_tail in T'. subst e'.
  assert (X' : In x (filter (of_kind k) e)) by (apply filter_In; now split).
  assert (Y' : In y (filter (of_kind k) e)) by (apply filter_In; now split).
  destruct (filter (of_kind k) e) as [|u [|v l]]; [contradiction| |cbn [length] in L; lia].
  destruct X' as [<-|[]], Y' as [<-|[]]. reflexivity.
Qed.

