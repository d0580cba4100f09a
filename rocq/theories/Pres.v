(** Properties of the context a piece of code preserves. *)
From Verif Require Import Monad Common Msg1 Msg2 Msg3 Msg4 Exporter History Logic Sym.

(** [m] preserves [P]. *)
Definition pr (P : ctx -> Prop) {A} (m : M A) : Prop :=
  forall w, P (w_ctx w) -> sat Any m w (fun _ w' => P (w_ctx w')).
Create HintDb pr discriminated.
#[export] Hint Constants Opaque : pr.
#[export] Hint Transparent bytes M : pr.
Section Pres.
Context {E : env} (P : ctx -> Prop).
Lemma ret_pr : forall A (a : A), pr P (ret a). Proof. intros A a w H. now apply sat_ret. Qed.
Lemma bind_pr : forall A B (m : M A) (k : A -> M B), pr P m -> (forall a, pr P (k a)) -> pr P (bind m k).
Proof.
  intros A B m k Hm Hk w H. apply sat_bind. eapply sat_conseq; [now apply Hm|]. intros a w1 H1. now apply Hk.
Qed.
Lemma getc_pr : forall B (k : ctx -> M B), (forall c, P c -> pr P (k c)) -> pr P (bind getc k).
Proof. intros B k Hk w H. apply sat_bind, sat_getc. now apply Hk. Qed.
Lemma check_pr : forall b u, pr P (check b u). Proof. intros b u w H. now apply sy_check. Qed.
Lemma need_pr : forall A (o : option A) u, pr P (need o u). Proof. intros A o u w H. now apply sy_need. Qed.
Lemma fault_pr : forall A u, pr P (@fault A u). Proof. intros A u w H. now apply sat_fault. Qed.
Lemma modify_pr : forall f, (forall c, P c -> P (f c)) -> pr P (modify f).
Proof. intros f H w Hw. apply sat_modify. now apply H. Qed.
Lemma alloc_pr : forall a b, pr P (alloc a b). Proof. intros a b w H. now apply sy_alloc. Qed.
Lemma free_pr : forall a, pr P (free a). Proof. intros a w H. now apply sy_free. Qed.
Lemma import_pr : forall a b, pr P (call_import a b). Proof. intros a b w H. now apply sy_import. Qed.
Lemma destroy_pr : forall a, pr P (call_destroy a). Proof. intros a w H. now apply sy_destroy. Qed.
Lemma mkpair_pr : forall a b c, pr P (call_mkpair a b c). Proof. intros a b c w H. now apply sy_mkpair. Qed.
Lemma agree_pr : forall a b c, pr P (call_agree a b c). Proof. intros a b c w H. now apply sy_agree. Qed.
Lemma sign_pr : forall a b c, pr P (call_sign a b c). Proof. intros a b c w H. now apply sy_sign. Qed.
Lemma verify_pr : forall a b c, pr P (call_verify a b c). Proof. intros a b c w H. now apply sy_verify. Qed.
Lemma extract_pr : forall a b c, pr P (call_extract a b c). Proof. intros a b c w H. now apply sy_extract. Qed.
Lemma expand_pr : forall a b c, pr P (call_expand a b c). Proof. intros a b c w H. now apply sy_expand. Qed.
Lemma encrypt_pr : forall a b c d e, pr P (call_encrypt a b c d e). Proof. intros a b c d e w H. now apply sy_encrypt. Qed.
Lemma decrypt_pr : forall a b c d e, pr P (call_decrypt a b c d e). Proof. intros a b c d e w H. now apply sy_decrypt. Qed.
Lemma hash_pr : forall a b, pr P (call_hash a b). Proof. intros a b w H. now apply sy_hash. Qed.
Lemma fetch_pr : pr P call_fetch. Proof. intros w H. now apply sy_fetch. Qed.
Lemma cverify_pr : forall a, pr P (call_cverify a). Proof. intros a w H. now apply sy_cverify. Qed.
Lemma compose_pr : forall a b c, pr P (call_compose a b c). Proof. intros a b c w H. now apply sy_compose. Qed.
Lemma process_pr : forall a b c, pr P (call_process a b c). Proof. intros a b c w H. now apply sy_process. Qed.
Lemma suite_pr : pr P get_suite. Proof. intros w H. now apply sy_get_suite. Qed.
Lemma th_pr : pr P get_th. Proof. intros w H. now apply sy_get_th. Qed.
Lemma prk_pr : pr P get_prk. Proof. intros w H. now apply sy_get_prk. Qed.
Lemma dh_pub_pr : pr P get_dh_pub. Proof. intros w H. now apply sy_get_dh_pub. Qed.
Lemma dh_priv_pr : pr P get_dh_priv. Proof. intros w H. now apply sy_get_dh_priv. Qed.
Lemma dh_peer_pr : pr P get_dh_peer. Proof. intros w H. now apply sy_get_dh_peer. Qed.
Lemma dh_secret_pr : pr P get_dh_secret. Proof. intros w H. now apply sy_get_dh_secret. Qed.
Lemma put_th_pr : forall o, (forall x c, P c -> P (set_th x c)) -> pr P (put_th o).
Proof. intros o HP w H. apply sy_put_th. intros _. now apply HP. Qed.
Lemma put_prk_pr : forall o, (forall x c, P c -> P (set_prk x c)) -> pr P (put_prk o).
Proof. intros o HP w H. apply sy_put_prk. intros _. now apply HP. Qed.
Lemma put_dh_pub_pr : forall o, (forall x c, P c -> P (set_dh_pub x c)) -> pr P (put_dh_pub o).
Proof. intros o HP w H. apply sy_put_dh_pub. intros _. now apply HP. Qed.
Lemma put_dh_priv_pr : forall o, (forall x c, P c -> P (set_dh_priv x c)) -> pr P (put_dh_priv o).
Proof. intros o HP w H. apply sy_put_dh_priv. intros _. now apply HP. Qed.
Lemma put_dh_peer_pr : forall o, (forall x c, P c -> P (set_dh_peer x c)) -> pr P (put_dh_peer o).
Proof. intros o HP w H. apply sy_put_dh_peer. intros _. now apply HP. Qed.
Lemma put_dh_secret_pr : forall o, (forall x c, P c -> P (set_dh_secret x c)) -> pr P (put_dh_secret o).
Proof. intros o HP w H. apply sy_put_dh_secret. intros _. now apply HP. Qed.
End Pres.
#[export] Hint Resolve ret_pr check_pr need_pr fault_pr alloc_pr free_pr import_pr destroy_pr mkpair_pr agree_pr
  sign_pr verify_pr extract_pr expand_pr encrypt_pr decrypt_pr hash_pr fetch_pr cverify_pr compose_pr process_pr
  suite_pr th_pr prk_pr dh_pub_pr dh_priv_pr dh_peer_pr dh_secret_pr : pr.
(** [md] closes [P c -> P (f c)]. *)
Ltac pr_step md :=
  lazymatch goal with
  | |- pr _ (bind getc _) => apply getc_pr; intros ? ?
  | |- pr _ (bind _ _) => apply bind_pr; [|intro]
  | |- pr _ (if ?b then _ else _) => let X := fresh "G" in destruct b eqn:X
  | |- pr _ (match ?x with _ => _ end) => destruct x
  | |- pr _ (let _ := _ in _) => cbv zeta
  | |- pr _ ((fun _ => _) _) => cbv beta
  | |- pr _ (modify _) => apply modify_pr; intros; solve [md]
  | |- pr _ (put_th _) => apply put_th_pr; intros; solve [md]
  | |- pr _ (put_prk _) => apply put_prk_pr; intros; solve [md]
  | |- pr _ (put_dh_pub _) => apply put_dh_pub_pr; intros; solve [md]
  | |- pr _ (put_dh_priv _) => apply put_dh_priv_pr; intros; solve [md]
  | |- pr _ (put_dh_peer _) => apply put_dh_peer_pr; intros; solve [md]
  | |- pr _ (put_dh_secret _) => apply put_dh_secret_pr; intros; solve [md]
  | |- pr _ _ => solve [auto 2 with pr nocore]
  end.
Ltac pr_auto md := repeat pr_step md.
(** Code that never writes the context. *)
Section Pure.
Context {E : env} (P : ctx -> Prop).
Ltac go := pr_auto fail.
Lemma frees_pr : forall l, pr P (frees l). Proof. induction l; cbn [frees]; go. Qed.
Hint Resolve frees_pr : pr.
Lemma fail_pr : forall l r, pr P (fail l r). Proof. intros. unfold fail. go. Qed.
Lemma failp_pr : forall l r, pr P (failp l r). Proof. intros. unfold failp. go. Qed.
Lemma rd_pr : forall a b c, pr P (rd a b c). Proof. intros. unfold rd. go. Qed.
Lemma rd_ptr_pr : forall a b, pr P (rd_ptr a b). Proof. intros. unfold rd_ptr. go. Qed.
Lemma rd_tok_pr : forall a b, pr P (rd_tok a b). Proof. intros. unfold rd_tok. go. Qed.
Hint Resolve fail_pr failp_pr rd_pr rd_ptr_pr rd_tok_pr : pr.
Lemma read_toks_pr : forall p l, pr P (read_toks p l). Proof. induction l; cbn [read_toks]; go. Qed.
Hint Resolve read_toks_pr : pr.
Lemma encode_tokens_pr : forall p n l, pr P (encode_tokens p n l). Proof. intros. unfold encode_tokens. go. Qed.
Lemma comp_id_cred_len_pr : forall cr, pr P (comp_id_cred_len cr). Proof. intros. unfold comp_id_cred_len. go. Qed.
Lemma comp_cred_len_pr : forall cr, pr P (comp_cred_len cr). Proof. intros. unfold comp_cred_len. go. Qed.
Lemma kid_compact_pr : forall cr, pr P (kid_compact_encoding cr). Proof. intros. unfold kid_compact_encoding. go. Qed.
Lemma id_cred_of_pr : forall cr, pr P (id_cred_of cr). Proof. intros. unfold id_cred_of. go. Qed.
Lemma cred_bytes_pr : forall cr n, pr P (cred_bytes cr n). Proof. intros. unfold cred_bytes. go. Qed.
Hint Resolve encode_tokens_pr comp_id_cred_len_pr comp_cred_len_pr kid_compact_pr id_cred_of_pr cred_bytes_pr : pr.
Lemma comp_mac_context_length_pr : forall cr, pr P (comp_mac_context_length cr).
Proof. intros. unfold comp_mac_context_length. go. Qed.
Lemma comp_mac_context_pr : forall cr n, pr P (comp_mac_context cr n). Proof. intros. unfold comp_mac_context. go. Qed.
Lemma comp_mac_length_pr : pr P comp_mac_length. Proof. unfold comp_mac_length. go. Qed.
Lemma comp_sign_or_mac_length_pr : pr P comp_sign_or_mac_length. Proof. unfold comp_sign_or_mac_length. go. Qed.
Lemma comp_mac_pr : forall m n, pr P (comp_mac m n). Proof. intros. unfold comp_mac. go. Qed.
Lemma sign_cose_sign_1_pr : forall cr m mac n, pr P (sign_cose_sign_1 cr m mac n). Proof. intros. unfold sign_cose_sign_1. go. Qed.
Lemma verify_cose_sign_1_pr : forall m a b c, pr P (verify_cose_sign_1 m a b c). Proof. intros. unfold verify_cose_sign_1. go. Qed.
Hint Resolve comp_mac_context_length_pr comp_mac_context_pr comp_mac_length_pr comp_sign_or_mac_length_pr comp_mac_pr
  sign_cose_sign_1_pr verify_cose_sign_1_pr : pr.
Lemma comp_sign_or_mac_pr : forall cr m mac n, pr P (comp_sign_or_mac cr m mac n). Proof. intros. unfold comp_sign_or_mac. go. Qed.
Lemma verify_sign_or_mac_pr : forall m a b c, pr P (verify_sign_or_mac m a b c). Proof. intros. unfold verify_sign_or_mac. go. Qed.
Hint Resolve comp_sign_or_mac_pr verify_sign_or_mac_pr : pr.
Lemma kdf_pr : forall x len l cx k n, pr P cx -> pr P k -> pr P (kdf x len l cx k n).
Proof. intros x len l cx k n H1 H2. unfold kdf. go. Qed.
Lemma kdf_th_pr : forall x len l n, pr P (kdf x len l get_th get_prk n). Proof. intros. apply kdf_pr; auto with pr. Qed.
Lemma kdf_ks_pr : forall x len l b n, pr P (kdf x len l get_th (ret b) n). Proof. intros. apply kdf_pr; auto with pr. Qed.
Lemma kdf_ex_pr : forall x len l b n, pr P (kdf x len l (ret b) get_prk n). Proof. intros. apply kdf_pr; auto with pr. Qed.
Hint Resolve kdf_th_pr kdf_ks_pr kdf_ex_pr : pr.
Lemma comp_salt_3e2m_pr : forall n, pr P (comp_salt_3e2m n). Proof. intros. unfold comp_salt_3e2m. go. Qed.
Lemma comp_salt_4e3m_pr : forall n, pr P (comp_salt_4e3m n). Proof. intros. unfold comp_salt_4e3m. go. Qed.
Lemma agree_static_pr : forall p n, pr P (agree_static p n). Proof. intros. unfold agree_static. go. Qed.
Lemma comp_plaintext_len_pr : forall m n, pr P (comp_plaintext_len m n). Proof. intros. unfold comp_plaintext_len. go. Qed.
Lemma fill_plaintext_pr : forall m s p n, pr P (fill_plaintext m s p n). Proof. intros. unfold fill_plaintext. go. Qed.
Hint Resolve fill_plaintext_pr : pr.
Lemma prepare_plaintext_2_pr : forall m s n, pr P (prepare_plaintext_2 m s n). Proof. intros. unfold prepare_plaintext_2. go. Qed.
Lemma comp_keystream_pr : forall k n, pr P (comp_keystream k n). Proof. intros. unfold comp_keystream. go. Qed.
Lemma prepare_message_2_pr : forall k n, pr P (prepare_message_2 k n). Proof. intros. unfold prepare_message_2. go. Qed.
Lemma comp_ciphertext_2_len_pr : forall k, pr P (comp_ciphertext_2_len k). Proof. intros. unfold comp_ciphertext_2_len. go. Qed.
Lemma parse_id_cred_pr : forall b k, pr P (parse_id_cred b k). Proof. intros. unfold parse_id_cred. go. Qed.
Lemma ead_process_pr : pr P ead_process. Proof. unfold ead_process. go. Qed.
Lemma prepare_plaintext_3_pr : forall m s n, pr P (prepare_plaintext_3 m s n). Proof. intros. unfold prepare_plaintext_3. go. Qed.
Lemma expand_part_pr : forall a b c, pr P (expand_part a b c). Proof. intros. unfold expand_part. go. Qed.
Hint Resolve expand_part_pr : pr.
Lemma key_iv_aad_pr : forall a b c, pr P (key_iv_aad a b c). Proof. intros. unfold key_iv_aad. go. Qed.
Hint Resolve key_iv_aad_pr : pr.
Lemma comp_key_iv_aad_3_pr : forall a b c, pr P (comp_key_iv_aad_3 a b c). Proof. intros. unfold comp_key_iv_aad_3. go. Qed.
Lemma compute_key_iv_aad_4_pr : forall a b c, pr P (compute_key_iv_aad_4 a b c). Proof. intros. unfold compute_key_iv_aad_4. go. Qed.
Lemma aead_encrypt_pr : forall a b c d e, pr P (aead_encrypt a b c d e). Proof. intros. unfold aead_encrypt. go. Qed.
Lemma aead_decrypt_pr : forall a b c d e, pr P (aead_decrypt a b c d e). Proof. intros. unfold aead_decrypt. go. Qed.
Hint Resolve aead_encrypt_pr aead_decrypt_pr : pr.
Lemma comp_ciphertext_pr : forall a b c d e, pr P (comp_ciphertext a b c d e). Proof. intros. unfold comp_ciphertext. go. Qed.
Lemma decrypt_ciphertext_3_pr : forall a b c d e, pr P (decrypt_ciphertext_3 a b c d e). Proof. intros. unfold decrypt_ciphertext_3. go. Qed.
Lemma gen_msg_3_pr : forall a b, pr P (gen_msg_3 a b). Proof. intros. unfold gen_msg_3. go. Qed.
Lemma prepare_plaintext_4_pr : forall n, pr P (prepare_plaintext_4 n). Proof. intros. unfold prepare_plaintext_4. go. Qed.
Lemma compute_prk_exporter_pr : forall n, pr P (compute_prk_exporter n). Proof. intros. unfold compute_prk_exporter. go. Qed.
End Pure.
#[export] Hint Resolve frees_pr fail_pr failp_pr rd_pr rd_ptr_pr rd_tok_pr read_toks_pr encode_tokens_pr comp_id_cred_len_pr
  comp_cred_len_pr kid_compact_pr id_cred_of_pr cred_bytes_pr comp_mac_context_length_pr comp_mac_context_pr
  comp_mac_length_pr comp_sign_or_mac_length_pr comp_mac_pr sign_cose_sign_1_pr verify_cose_sign_1_pr comp_sign_or_mac_pr
  verify_sign_or_mac_pr kdf_th_pr kdf_ks_pr kdf_ex_pr comp_salt_3e2m_pr comp_salt_4e3m_pr agree_static_pr
  comp_plaintext_len_pr fill_plaintext_pr prepare_plaintext_2_pr comp_keystream_pr prepare_message_2_pr
  comp_ciphertext_2_len_pr parse_id_cred_pr ead_process_pr prepare_plaintext_3_pr expand_part_pr key_iv_aad_pr
  comp_key_iv_aad_3_pr compute_key_iv_aad_4_pr aead_encrypt_pr aead_decrypt_pr comp_ciphertext_pr decrypt_ciphertext_3_pr
  gen_msg_3_pr prepare_plaintext_4_pr compute_prk_exporter_pr : pr.
(** Code that writes the context: unfold it. *)
Ltac pr_open :=
  first [ progress unfold enter, ead_compose, hash_into_th, gen_dh_keys, comp_dh_secret, comp_th_2, comp_prk_2e,
            comp_prk_3e2m, comp_grx, agree_eph, prk_static, parse_msg_2, store_tokens, store_peer_cid,
            parse_plaintext_2, comp_th_3, comp_th_4, comp_th_next, comp_prk_4e3m, comp_giy, parse_plaintext_3,
            compute_prk_out, compute_new_prk_out, kdf_into_prk
        | progress unfold message_1_compose, message_1_process, message_2_compose, message_2_process,
            message_3_compose, message_3_process, message_4_compose, message_4_process, export_prk_exporter,
            export_key_update, export_oscore_session ].
Ltac pr_all md := repeat first [ pr_step md | progress pr_open ].
