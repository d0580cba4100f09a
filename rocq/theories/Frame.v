(** Resource balance and frame of every helper function of the library: each returns with the
    buffers and key handles it found, and writes only the session fields outside [kept]. *)
From Verif Require Import Monad Common Msg1 Msg2 Msg3 Msg4 Exporter Logic.

Create HintDb fr.
#[export] Hint Resolve mkpair_fr agree_fr sign_fr verify_fr extract_fr expand_fr encrypt_fr
  decrypt_fr hash_fr fetch_fr cverify_fr compose_fr process_fr ret_fr getc_fr : fr.
#[export] Hint Extern 1 (fr (check _ _)) => (apply check_fr; discriminate) : fr.
#[export] Hint Extern 1 (fr (need _ _)) => (apply need_fr; discriminate) : fr.
#[export] Hint Extern 1 (fr (fault _)) => (apply fault_fr; discriminate) : fr.
#[export] Hint Extern 1 (fr (modify _)) => (apply modify_fr; intro; reflexivity) : fr.

(** Case split on the first test in the goal's program. *)
Ltac split_bool b :=
  lazymatch b with
  | negb true => cbn [negb]
  | negb false => cbn [negb]
  | negb ?x => split_bool x
  | ?x =? ?y =>
      first [ is_const x; is_const y;
              let v := eval vm_compute in b in change b with v; cbn [negb]; cbv iota
            | let X := fresh "X" in destruct b eqn:X; cbn [negb] ]
  | _ => let X := fresh "X" in destruct b eqn:X; cbn [negb]
  end.

Ltac fr_step :=
  lazymatch goal with
  | |- fr (bind _ _) => apply bind_fr; [|intro]
  | |- fr (if ?b then _ else _) => split_bool b
  | |- fr (match ?x with _ => _ end) => destruct x
  | |- fr (let _ := _ in _) => cbv zeta
  | |- fr _ => solve [auto 2 with fr nocore]
  end.
Ltac fr_auto := repeat fr_step.

Ltac dpos := let b := fresh in intro b; destruct b; intro; discriminate.
Ltac kfin := intros; cbv beta delta [k0];
  repeat match goal with
         | H : ?b = true |- context [if ?b then _ else _] => rewrite H
         | H : ?b = false |- context [if ?b then _ else _] => rewrite H
         end; lia.
Ltac dfin := let b := fresh in intro b; destruct b; reflexivity.
Ltac st_fin := eapply st_eq; [eassumption|kfin|dfin].

Ltac go_step :=
  lazymatch goal with
  | |- sat _ (bind _ _) _ _ => apply sat_bind
  | |- sat _ (ret _) _ _ => apply sat_ret; cbv beta; try st_fin
  | |- sat _ (if ?b then _ else _) _ _ => split_bool b
  | |- sat _ (match ?x with _ => _ end) _ _ => destruct x eqn:?
  | H : st _ _ ?w0 ?w |- sat _ (alloc _ _) ?w _ =>
      eapply sat_alloc; [exact H|clear H; intros ? H|clear H; intros ? H]; cbv beta
  | Hn : nonneg ?w0, H : st _ _ ?w0 ?w |- sat _ (free _) ?w _ =>
      eapply sat_free; [exact Hn|exact H|vm_compute; reflexivity|clear H; intros ? H]; cbv beta
  | H : st _ _ ?w0 ?w |- sat _ (call_import _ _) ?w _ =>
      eapply sat_import; [exact H|clear H; intros ? ? ? H]; cbv beta
  | H : st _ _ ?w0 ?w |- sat _ (call_destroy _) ?w _ =>
      eapply sat_destroy; [exact H|clear H; intros ? ? H]; cbv beta
  | Hn : nonneg ?w0, H : st _ _ ?w0 ?w |- sat _ ?m ?w _ =>
      eapply sat_fr; [exact Hn|exact H|dpos|solve [fr_auto]|clear H; intros ? ? H]; cbv beta
  end.
Ltac go := repeat go_step.

Section Frame.
Context {E : env}.

Lemma start_fr : forall A (m : M A),
  (forall w0 w, nonneg w0 -> st k0 d0 w0 w -> sat nofree m w (fun _ w' => st k0 d0 w0 w')) -> fr m.
Proof. intros A m H w Hn. apply H; [exact Hn|apply st_refl]. Qed.
Ltac fr_go := intros; apply start_fr; intros ? ? ? ?; go.

Lemma rd_fr : forall a b c, fr (rd a b c). Proof. intros. unfold rd. fr_auto. Qed.
Lemma rd_ptr_fr : forall a b, fr (rd_ptr a b). Proof. intros. unfold rd_ptr. fr_auto. Qed.
Lemma rd_tok_fr : forall a b, fr (rd_tok a b). Proof. intros. unfold rd_tok. fr_auto. Qed.
Hint Resolve rd_fr rd_ptr_fr rd_tok_fr : fr.
Lemma get_suite_fr : fr get_suite. Proof. unfold get_suite. fr_auto. Qed.
Lemma get_th_fr : fr get_th. Proof. unfold get_th. fr_auto. Qed.
Lemma get_prk_fr : fr get_prk. Proof. unfold get_prk. fr_auto. Qed.
Lemma get_dh_pub_fr : fr get_dh_pub. Proof. unfold get_dh_pub. fr_auto. Qed.
Lemma get_dh_priv_fr : fr get_dh_priv. Proof. unfold get_dh_priv. fr_auto. Qed.
Lemma get_dh_peer_fr : fr get_dh_peer. Proof. unfold get_dh_peer. fr_auto. Qed.
Lemma get_dh_secret_fr : fr get_dh_secret. Proof. unfold get_dh_secret. fr_auto. Qed.
Hint Resolve get_suite_fr get_th_fr get_prk_fr get_dh_pub_fr get_dh_priv_fr get_dh_peer_fr
  get_dh_secret_fr : fr.
Lemma put_th_fr : forall x, fr (put_th x). Proof. intros. unfold put_th, wr. fr_auto. Qed.
Lemma put_prk_fr : forall x, fr (put_prk x). Proof. intros. unfold put_prk, wr. fr_auto. Qed.
Lemma put_dh_pub_fr : forall x, fr (put_dh_pub x). Proof. intros. unfold put_dh_pub, wr. fr_auto. Qed.
Lemma put_dh_priv_fr : forall x, fr (put_dh_priv x). Proof. intros. unfold put_dh_priv, wr. fr_auto. Qed.
Lemma put_dh_peer_fr : forall x, fr (put_dh_peer x). Proof. intros. unfold put_dh_peer, wr. fr_auto. Qed.
Lemma put_dh_secret_fr : forall x, fr (put_dh_secret x). Proof. intros. unfold put_dh_secret, wr. fr_auto. Qed.
Hint Resolve put_th_fr put_prk_fr put_dh_pub_fr put_dh_priv_fr put_dh_peer_fr put_dh_secret_fr : fr.

(** ** Common.v *)
Lemma comp_id_cred_len_fr : forall cr, fr (comp_id_cred_len cr).
Proof. intros. unfold comp_id_cred_len. fr_auto. Qed.
Lemma comp_cred_len_fr : forall cr, fr (comp_cred_len cr).
Proof. intros. unfold comp_cred_len. fr_auto. Qed.
Lemma read_toks_fr : forall p l, fr (read_toks p l).
Proof. induction l; cbn [read_toks]; fr_auto. Qed.
Hint Resolve comp_id_cred_len_fr comp_cred_len_fr read_toks_fr : fr.
Lemma encode_tokens_fr : forall p n l, fr (encode_tokens p n l).
Proof. intros. unfold encode_tokens. fr_auto. Qed.
Lemma kid_compact_fr : forall cr, fr (kid_compact_encoding cr).
Proof. intros. unfold kid_compact_encoding. fr_auto. Qed.
Lemma id_cred_of_fr : forall cr, fr (id_cred_of cr).
Proof. intros. unfold id_cred_of. fr_auto. Qed.
Lemma cred_bytes_fr : forall cr n, fr (cred_bytes cr n).
Proof. intros. unfold cred_bytes. fr_auto. Qed.
Hint Resolve encode_tokens_fr kid_compact_fr id_cred_of_fr cred_bytes_fr : fr.
Lemma comp_mac_context_length_fr : forall cr, fr (comp_mac_context_length cr).
Proof. intros. unfold comp_mac_context_length. fr_auto. Qed.
Lemma comp_mac_context_fr : forall cr n, fr (comp_mac_context cr n).
Proof. intros. unfold comp_mac_context. fr_auto. Qed.
Lemma comp_mac_length_fr : fr comp_mac_length.
Proof. unfold comp_mac_length. fr_auto. Qed.
Lemma comp_sign_or_mac_length_fr : fr comp_sign_or_mac_length.
Proof. unfold comp_sign_or_mac_length. fr_auto. Qed.
Lemma comp_mac_fr : forall m n, fr (comp_mac m n).
Proof. unfold comp_mac. fr_go. Qed.
Lemma sign_cose_sign_1_fr : forall cr m mac n, fr (sign_cose_sign_1 cr m mac n).
Proof. unfold sign_cose_sign_1. fr_go. Qed.
Lemma verify_cose_sign_1_fr : forall m a b c, fr (verify_cose_sign_1 m a b c).
Proof. unfold verify_cose_sign_1. fr_go. Qed.
Hint Resolve comp_mac_context_length_fr comp_mac_context_fr comp_mac_length_fr
  comp_sign_or_mac_length_fr comp_mac_fr sign_cose_sign_1_fr verify_cose_sign_1_fr : fr.
Lemma comp_sign_or_mac_fr : forall cr m mac n, fr (comp_sign_or_mac cr m mac n).
Proof. intros. unfold comp_sign_or_mac. fr_auto. Qed.
Lemma verify_sign_or_mac_fr : forall m a b c, fr (verify_sign_or_mac m a b c).
Proof. intros. unfold verify_sign_or_mac. fr_auto. Qed.
Hint Resolve comp_sign_or_mac_fr verify_sign_or_mac_fr : fr.

(** ** Msg1.v *)
Lemma ead_compose_fr : fr ead_compose. Proof. unfold ead_compose. fr_auto. Qed.
Lemma hash_into_th_fr : forall n i, fr (hash_into_th n i).
Proof. intros. unfold hash_into_th. fr_auto. Qed.
Hint Resolve ead_compose_fr hash_into_th_fr : fr.

(** ** Msg2.v *)
Lemma kdf_fr : forall x len l cx k n, fr cx -> fr k -> fr (kdf x len l cx k n).
Proof.
  intros x len l cx k n H1 H2. unfold kdf. apply start_fr; intros w0 w Hn H.
  repeat first [go_step | eapply sat_fr; [exact Hn|exact H|dpos|assumption|clear H; intros ? ? H]; cbv beta].
Qed.
Lemma gen_dh_keys_fr : fr gen_dh_keys. Proof. unfold gen_dh_keys. fr_go. Qed.
Lemma comp_dh_secret_fr : fr comp_dh_secret. Proof. unfold comp_dh_secret. fr_go. Qed.
Lemma comp_th_2_fr : fr comp_th_2. Proof. unfold comp_th_2. fr_go. Qed.
Lemma comp_prk_2e_fr : fr comp_prk_2e. Proof. unfold comp_prk_2e. fr_go. Qed.
Hint Resolve kdf_fr gen_dh_keys_fr comp_dh_secret_fr comp_th_2_fr comp_prk_2e_fr : fr.
Lemma kdf_th_fr : forall x len l n, fr (kdf x len l get_th get_prk n).
Proof. intros. apply kdf_fr; auto with fr. Qed.
Hint Resolve kdf_th_fr : fr.
Lemma comp_salt_3e2m_fr : forall n, fr (comp_salt_3e2m n).
Proof. intros. unfold comp_salt_3e2m. fr_auto. Qed.
Lemma agree_eph_fr : forall p n, fr (agree_eph p n). Proof. unfold agree_eph. fr_go. Qed.
Lemma agree_static_fr : forall p n, fr (agree_static p n). Proof. intros. unfold agree_static. fr_auto. Qed.
Hint Resolve comp_salt_3e2m_fr agree_eph_fr agree_static_fr : fr.
Lemma comp_grx_fr : forall a b n, fr (comp_grx a b n). Proof. intros. unfold comp_grx. fr_auto. Qed.
Lemma prk_static_fr : forall s g n, (forall k, fr (s k)) -> (forall k, fr (g k)) -> fr (prk_static s g n).
Proof.
  intros s g n H1 H2. unfold prk_static. apply start_fr; intros w0 w Hn H.
  repeat first [go_step
    | eapply sat_fr; [exact Hn|exact H|dpos|solve [auto]|clear H; intros ? ? H]; cbv beta].
Qed.
Hint Resolve comp_grx_fr : fr.
Lemma comp_prk_3e2m_fr : forall a b, fr (comp_prk_3e2m a b).
Proof.
  intros. unfold comp_prk_3e2m. fr_auto. apply prk_static_fr; intros; auto with fr.
Qed.
Lemma comp_plaintext_len_fr : forall m n, fr (comp_plaintext_len m n).
Proof. intros. unfold comp_plaintext_len. fr_auto. Qed.
Lemma fill_plaintext_fr : forall a b c n, fr (fill_plaintext a b c n).
Proof. intros. unfold fill_plaintext. fr_auto. Qed.
Hint Resolve comp_prk_3e2m_fr comp_plaintext_len_fr fill_plaintext_fr : fr.
Lemma prepare_plaintext_2_fr : forall a b n, fr (prepare_plaintext_2 a b n).
Proof. intros. unfold prepare_plaintext_2. fr_auto. Qed.
Lemma kdf_ks_fr : forall x len l k n, fr (kdf x len l get_th (ret k) n).
Proof. intros. apply kdf_fr; auto with fr. Qed.
Hint Resolve kdf_ks_fr : fr.
Lemma comp_keystream_fr : forall a n, fr (comp_keystream a n).
Proof. intros. unfold comp_keystream. fr_auto. Qed.
Lemma prepare_message_2_fr : forall a n, fr (prepare_message_2 a n).
Proof. unfold prepare_message_2. fr_go. Qed.
Lemma comp_ciphertext_2_len_fr : forall m, fr (comp_ciphertext_2_len m).
Proof. intros. unfold comp_ciphertext_2_len. fr_auto. Qed.
Lemma parse_msg_2_fr : forall m n, fr (parse_msg_2 m n).
Proof. intros. unfold parse_msg_2. fr_auto. Qed.
Lemma parse_id_cred_fr : forall b i, fr (parse_id_cred b i).
Proof. intros. unfold parse_id_cred. fr_auto. Qed.
Lemma store_tokens_fr : forall l, fr (store_tokens l).
Proof. intros. unfold store_tokens. fr_auto. Qed.
Lemma store_peer_cid_fr : forall l, fr (store_peer_cid l).
Proof. intros. unfold store_peer_cid. fr_auto. Qed.
Hint Resolve prepare_plaintext_2_fr comp_keystream_fr prepare_message_2_fr comp_ciphertext_2_len_fr
  parse_msg_2_fr parse_id_cred_fr store_tokens_fr store_peer_cid_fr : fr.
Lemma parse_plaintext_2_fr : forall p, fr (parse_plaintext_2 p).
Proof. intros. unfold parse_plaintext_2. fr_auto. Qed.
Lemma comp_th_next_fr : forall a b s m p, fr (comp_th_next a b s m p).
Proof. unfold comp_th_next. fr_go. Qed.
Hint Resolve parse_plaintext_2_fr comp_th_next_fr : fr.
Lemma comp_th_3_fr : forall m p, fr (comp_th_3 m p). Proof. intros. apply comp_th_next_fr. Qed.
Lemma ead_process_fr : fr ead_process. Proof. unfold ead_process. fr_auto. Qed.
Hint Resolve comp_th_3_fr ead_process_fr : fr.

(** ** Msg3.v *)
Lemma comp_salt_4e3m_fr : forall n, fr (comp_salt_4e3m n).
Proof. intros. unfold comp_salt_4e3m. fr_auto. Qed.
Lemma comp_giy_fr : forall a b n, fr (comp_giy a b n). Proof. intros. unfold comp_giy. fr_auto. Qed.
Hint Resolve comp_salt_4e3m_fr comp_giy_fr : fr.
Lemma comp_prk_4e3m_fr : forall a b, fr (comp_prk_4e3m a b).
Proof. intros. unfold comp_prk_4e3m. fr_auto. apply prk_static_fr; intros; auto with fr. Qed.
Lemma prepare_plaintext_3_fr : forall a b n, fr (prepare_plaintext_3 a b n).
Proof. intros. unfold prepare_plaintext_3. fr_auto. Qed.
Lemma expand_part_fr : forall a b n, fr (expand_part a b n). Proof. unfold expand_part. fr_go. Qed.
Hint Resolve comp_prk_4e3m_fr prepare_plaintext_3_fr expand_part_fr : fr.
Lemma key_iv_aad_fr : forall a b n, fr (key_iv_aad a b n). Proof. unfold key_iv_aad. fr_go. Qed.
Hint Resolve key_iv_aad_fr : fr.
Lemma comp_key_iv_aad_3_fr : forall a b n, fr (comp_key_iv_aad_3 a b n).
Proof. intros. unfold comp_key_iv_aad_3. fr_auto. Qed.
Lemma aead_encrypt_fr : forall a b c d n, fr (aead_encrypt a b c d n). Proof. unfold aead_encrypt. fr_go. Qed.
Lemma aead_decrypt_fr : forall a b c d n, fr (aead_decrypt a b c d n). Proof. unfold aead_decrypt. fr_go. Qed.
Hint Resolve comp_key_iv_aad_3_fr aead_encrypt_fr aead_decrypt_fr : fr.
Lemma comp_ciphertext_fr : forall a b c d n, fr (comp_ciphertext a b c d n).
Proof. intros. unfold comp_ciphertext. fr_auto. Qed.
Lemma decrypt_ciphertext_3_fr : forall a b c d n, fr (decrypt_ciphertext_3 a b c d n).
Proof. intros. unfold decrypt_ciphertext_3. fr_auto. Qed.
Lemma comp_th_4_fr : forall m p, fr (comp_th_4 m p). Proof. intros. apply comp_th_next_fr. Qed.
Lemma gen_msg_3_fr : forall a n, fr (gen_msg_3 a n). Proof. intros. unfold gen_msg_3. fr_auto. Qed.
Lemma parse_plaintext_3_fr : forall p, fr (parse_plaintext_3 p).
Proof. intros. unfold parse_plaintext_3. fr_auto. Qed.
Hint Resolve comp_ciphertext_fr decrypt_ciphertext_3_fr comp_th_4_fr gen_msg_3_fr parse_plaintext_3_fr : fr.

(** ** Msg4.v *)
Lemma prepare_plaintext_4_fr : forall n, fr (prepare_plaintext_4 n).
Proof. intros. unfold prepare_plaintext_4. fr_auto. Qed.
Lemma compute_key_iv_aad_4_fr : forall a b n, fr (compute_key_iv_aad_4 a b n).
Proof. intros. unfold compute_key_iv_aad_4. fr_auto. Qed.
Hint Resolve prepare_plaintext_4_fr compute_key_iv_aad_4_fr : fr.

(** ** Exporter.v *)
Lemma kdf_into_prk_fr : forall a b cx, fr cx -> fr (kdf_into_prk a b cx).
Proof.
  intros a b cx H1. unfold kdf_into_prk. apply start_fr; intros w0 w Hn H.
  repeat first [go_step | eapply sat_fr; [exact Hn|exact H|dpos|assumption|clear H; intros ? ? H]; cbv beta].
Qed.
Lemma compute_prk_out_fr : fr compute_prk_out.
Proof. unfold compute_prk_out. fr_auto. apply kdf_into_prk_fr. auto with fr. Qed.
Lemma compute_new_prk_out_fr : forall e, fr (compute_new_prk_out e).
Proof. intros. unfold compute_new_prk_out. fr_auto. apply kdf_into_prk_fr. auto with fr. Qed.
Lemma compute_prk_exporter_fr : forall n, fr (compute_prk_exporter n).
Proof. intros. unfold compute_prk_exporter. fr_auto. Qed.
Hint Resolve compute_prk_out_fr compute_new_prk_out_fr compute_prk_exporter_fr : fr.
Lemma export_prk_exporter_fr : forall nn l n, fr (export_prk_exporter nn l n).
Proof. unfold export_prk_exporter. fr_go. Qed.
End Frame.
#[export] Hint Resolve rd_fr rd_ptr_fr rd_tok_fr get_suite_fr get_th_fr get_prk_fr get_dh_pub_fr
  get_dh_priv_fr get_dh_peer_fr get_dh_secret_fr put_th_fr put_prk_fr put_dh_pub_fr put_dh_priv_fr
  put_dh_peer_fr put_dh_secret_fr comp_id_cred_len_fr comp_cred_len_fr read_toks_fr encode_tokens_fr
  kid_compact_fr id_cred_of_fr cred_bytes_fr comp_mac_context_length_fr comp_mac_context_fr
  comp_mac_length_fr comp_sign_or_mac_length_fr comp_mac_fr sign_cose_sign_1_fr
  verify_cose_sign_1_fr comp_sign_or_mac_fr verify_sign_or_mac_fr ead_compose_fr hash_into_th_fr
  kdf_fr gen_dh_keys_fr comp_dh_secret_fr comp_th_2_fr comp_prk_2e_fr kdf_th_fr comp_salt_3e2m_fr
  agree_eph_fr agree_static_fr comp_grx_fr comp_prk_3e2m_fr comp_plaintext_len_fr fill_plaintext_fr
  kdf_ks_fr prepare_plaintext_2_fr comp_keystream_fr prepare_message_2_fr comp_ciphertext_2_len_fr
  parse_msg_2_fr parse_id_cred_fr store_tokens_fr store_peer_cid_fr parse_plaintext_2_fr
  comp_th_next_fr comp_th_3_fr ead_process_fr comp_salt_4e3m_fr comp_giy_fr comp_prk_4e3m_fr
  prepare_plaintext_3_fr expand_part_fr key_iv_aad_fr comp_key_iv_aad_3_fr aead_encrypt_fr
  aead_decrypt_fr comp_ciphertext_fr decrypt_ciphertext_3_fr comp_th_4_fr gen_msg_3_fr
  parse_plaintext_3_fr prepare_plaintext_4_fr compute_key_iv_aad_4_fr compute_prk_out_fr
  compute_new_prk_out_fr compute_prk_exporter_fr export_prk_exporter_fr : fr.
