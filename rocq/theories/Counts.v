(** How often a call makes a key pair, signs, verifies, encrypts and decrypts: at most once each.
    No code of /repo is modelled here. *)
From Verif Require Import Monad Common Msg1 Msg2 Msg3 Msg4 Exporter Logic Frame.

Definition asking (e : event) : bool :=
  match e with EvMkPair _ _ _ _ | EvSign _ _ _ _ | EvVerify _ _ _ _ | EvEncrypt _ _ _ _ _ _ | EvDecrypt _ _ _ _ _ _ => true | _ => false end.
Definition quiet {A} (m : M A) : Prop :=
  forall w, match m w with Ret _ w' => exists e, w_tr w' = e ++ w_tr w /\ filter asking e = [] | Ub _ => True end.
Definition upto (P : event -> bool) (n : nat) {A} (m : M A) : Prop :=
  forall w, match m w with
            | Ret _ w' => exists e, w_tr w' = e ++ w_tr w /\ (length (filter P e) <= n)%nat
            | Ub _ => True end.

Create HintDb qu discriminated.
#[export] Hint Constants Opaque : qu.
#[export] Hint Transparent bytes M : qu.
Lemma bind_q : forall A B (m : M A) (k : A -> M B), quiet m -> (forall a, quiet (k a)) -> quiet (bind m k).
Proof.
  intros A B m k H1 H2 w. specialize (H1 w). unfold bind. destruct (m w) as [a w1|]; [|exact I].
  destruct H1 as (e1 & T1 & F1). specialize (H2 a w1). destruct (k a w1) as [b w2|]; [|exact I].
  destruct H2 as (e2 & T2 & F2). exists (e2 ++ e1). rewrite T2, T1, filter_app, F1, F2. split; [apply app_assoc|reflexivity].
Qed.
Lemma ret_q : forall A (a : A), quiet (ret a). Proof. intros A a w. now exists []. Qed.
Lemma getc_q : quiet getc. Proof. intro w. now exists []. Qed.
Lemma trace_q : quiet trace. Proof. intro w. now exists []. Qed.
Lemma modify_q : forall f, quiet (modify f). Proof. intros f w. now exists []. Qed.
Lemma fault_q : forall A u, quiet (@fault A u). Proof. intros A u w. exact I. Qed.
Lemma check_q : forall b u, quiet (check b u). Proof. intros [] u w; [now exists []|exact I]. Qed.
Lemma need_q : forall A (o : option A) u, quiet (need o u). Proof. intros A [a|] u w; [now exists []|exact I]. Qed.
Lemma emit_q : forall e, asking e = false -> quiet (emit e).
Proof. intros e H w. exists [e]. split; [reflexivity|]. cbn [filter]. now rewrite H. Qed.
#[export] Hint Resolve ret_q getc_q trace_q modify_q fault_q check_q need_q : qu.
#[export] Hint Extern 1 (quiet (emit _)) => (apply emit_q; reflexivity) : qu.
Ltac q_step :=
  lazymatch goal with
  | |- quiet (bind _ _) => apply bind_q; [|intro]
  | |- quiet (if ?b then _ else _) => split_bool b
  | |- quiet (match ?x with _ => _ end) => destruct x
  | |- quiet (let _ := _ in _) => cbv zeta
  | |- quiet ((fun _ => _) _) => cbv beta
  | |- quiet _ => solve [auto 2 with qu nocore]
  end.
Ltac q_auto := repeat q_step.

Section Quiet.
Context {E : env}.
Lemma alloc_q : forall b n, quiet (alloc b n). Proof. intros. unfold alloc. q_auto. Qed.
Lemma free_q : forall b, quiet (free b). Proof. intros. unfold free. q_auto. Qed.
Lemma import_q : forall a b, quiet (call_import a b). Proof. intros. unfold call_import. q_auto. Qed.
Lemma destroy_q : forall a, quiet (call_destroy a). Proof. intros. unfold call_destroy. q_auto. Qed.
Lemma agree_q : forall a b c, quiet (call_agree a b c). Proof. intros. unfold call_agree, out_ok. q_auto. Qed.
Lemma extract_q : forall a b c, quiet (call_extract a b c). Proof. intros. unfold call_extract, out_ok. q_auto. Qed.
Lemma expand_q : forall a b c, quiet (call_expand a b c). Proof. intros. unfold call_expand, out_ok. q_auto. Qed.
Lemma hash_q : forall a b, quiet (call_hash a b). Proof. intros. unfold call_hash, out_ok. q_auto. Qed.
#[local] Hint Resolve alloc_q free_q import_q destroy_q agree_q extract_q expand_q hash_q : qu.
Lemma fetch_q : quiet call_fetch. Proof. intros. unfold call_fetch. q_auto. Qed.
Lemma cverify_q : forall c, quiet (call_cverify c). Proof. intros. unfold call_cverify. q_auto. Qed.
Lemma compose_q : forall a b n, quiet (call_compose a b n). Proof. intros. unfold call_compose. q_auto. Qed.
Lemma process_q : forall a b n, quiet (call_process a b n). Proof. intros. unfold call_process. q_auto. Qed.
#[local] Hint Resolve fetch_q cverify_q compose_q process_q : qu.
Lemma ead_compose_q : quiet ead_compose. Proof. unfold ead_compose. q_auto. Qed.
Lemma ead_process_q : quiet ead_process. Proof. unfold ead_process. q_auto. Qed.
Lemma frees_q : forall l, quiet (frees l).
Proof. induction l; cbn [frees]; q_auto. Qed.
#[local] Hint Resolve frees_q : qu.
Lemma rd_q : forall a b c, quiet (rd a b c).
Proof. intros. unfold rd. q_auto. Qed.
#[local] Hint Resolve rd_q : qu.
Lemma rd_ptr_q : forall a b, quiet (rd_ptr a b).
Proof. intros. unfold rd_ptr. q_auto. Qed.
#[local] Hint Resolve rd_ptr_q : qu.
Lemma rd_tok_q : forall a b, quiet (rd_tok a b).
Proof. intros. unfold rd_tok. q_auto. Qed.
#[local] Hint Resolve rd_tok_q : qu.
Lemma get_suite_q : quiet get_suite.
Proof. intros. unfold get_suite. q_auto. Qed.
#[local] Hint Resolve get_suite_q : qu.
Lemma get_th_q : quiet get_th.
Proof. intros. unfold get_th. q_auto. Qed.
#[local] Hint Resolve get_th_q : qu.
Lemma get_prk_q : quiet get_prk.
Proof. intros. unfold get_prk. q_auto. Qed.
#[local] Hint Resolve get_prk_q : qu.
Lemma get_dh_pub_q : quiet get_dh_pub.
Proof. intros. unfold get_dh_pub. q_auto. Qed.
#[local] Hint Resolve get_dh_pub_q : qu.
Lemma get_dh_priv_q : quiet get_dh_priv.
Proof. intros. unfold get_dh_priv. q_auto. Qed.
#[local] Hint Resolve get_dh_priv_q : qu.
Lemma get_dh_peer_q : quiet get_dh_peer.
Proof. intros. unfold get_dh_peer. q_auto. Qed.
#[local] Hint Resolve get_dh_peer_q : qu.
Lemma get_dh_secret_q : quiet get_dh_secret.
Proof. intros. unfold get_dh_secret. q_auto. Qed.
#[local] Hint Resolve get_dh_secret_q : qu.
Lemma put_th_q : forall x, quiet (put_th x).
Proof. intros. unfold put_th, wr. q_auto. Qed.
#[local] Hint Resolve put_th_q : qu.
Lemma put_prk_q : forall x, quiet (put_prk x).
Proof. intros. unfold put_prk, wr. q_auto. Qed.
#[local] Hint Resolve put_prk_q : qu.
Lemma put_dh_pub_q : forall x, quiet (put_dh_pub x).
Proof. intros. unfold put_dh_pub, wr. q_auto. Qed.
#[local] Hint Resolve put_dh_pub_q : qu.
Lemma put_dh_priv_q : forall x, quiet (put_dh_priv x).
Proof. intros. unfold put_dh_priv, wr. q_auto. Qed.
#[local] Hint Resolve put_dh_priv_q : qu.
Lemma put_dh_peer_q : forall x, quiet (put_dh_peer x).
Proof. intros. unfold put_dh_peer, wr. q_auto. Qed.
#[local] Hint Resolve put_dh_peer_q : qu.
Lemma put_dh_secret_q : forall x, quiet (put_dh_secret x).
Proof. intros. unfold put_dh_secret, wr. q_auto. Qed.
#[local] Hint Resolve put_dh_secret_q : qu.
Lemma comp_id_cred_len_q : forall cr, quiet (comp_id_cred_len cr).
Proof. intros. unfold comp_id_cred_len. q_auto. Qed.
#[local] Hint Resolve comp_id_cred_len_q : qu.
Lemma comp_cred_len_q : forall cr, quiet (comp_cred_len cr).
Proof. intros. unfold comp_cred_len. q_auto. Qed.
#[local] Hint Resolve comp_cred_len_q : qu.
Lemma read_toks_q : forall p l, quiet (read_toks p l).
Proof. induction l; cbn [read_toks]; q_auto. Qed.
#[local] Hint Resolve read_toks_q : qu.
Lemma encode_tokens_q : forall p n l, quiet (encode_tokens p n l).
Proof. intros. unfold encode_tokens. q_auto. Qed.
#[local] Hint Resolve encode_tokens_q : qu.
Lemma kid_compact_q : forall cr, quiet (kid_compact_encoding cr).
Proof. intros. unfold kid_compact_encoding. q_auto. Qed.
#[local] Hint Resolve kid_compact_q : qu.
Lemma id_cred_of_q : forall cr, quiet (id_cred_of cr).
Proof. intros. unfold id_cred_of. q_auto. Qed.
#[local] Hint Resolve id_cred_of_q : qu.
Lemma cred_bytes_q : forall cr n, quiet (cred_bytes cr n).
Proof. intros. unfold cred_bytes. q_auto. Qed.
#[local] Hint Resolve cred_bytes_q : qu.
Lemma comp_mac_context_length_q : forall cr, quiet (comp_mac_context_length cr).
Proof. intros. unfold comp_mac_context_length. q_auto. Qed.
#[local] Hint Resolve comp_mac_context_length_q : qu.
Lemma comp_mac_context_q : forall cr n, quiet (comp_mac_context cr n).
Proof. intros. unfold comp_mac_context. q_auto. Qed.
#[local] Hint Resolve comp_mac_context_q : qu.
Lemma comp_mac_length_q : quiet comp_mac_length.
Proof. intros. unfold comp_mac_length. q_auto. Qed.
#[local] Hint Resolve comp_mac_length_q : qu.
Lemma comp_sign_or_mac_length_q : quiet comp_sign_or_mac_length.
Proof. intros. unfold comp_sign_or_mac_length. q_auto. Qed.
#[local] Hint Resolve comp_sign_or_mac_length_q : qu.
Lemma comp_mac_q : forall m n, quiet (comp_mac m n).
Proof. intros. unfold comp_mac. q_auto. Qed.
#[local] Hint Resolve comp_mac_q : qu.
Lemma hash_into_th_q : forall n i, quiet (hash_into_th n i).
Proof. intros. unfold hash_into_th. q_auto. Qed.
#[local] Hint Resolve hash_into_th_q : qu.
Lemma kdf_q : forall x len l cx k n, quiet cx -> quiet k -> quiet (kdf x len l cx k n).
Proof. intros x len l cx k n H1 H2. unfold kdf. q_auto. Qed.
#[local] Hint Resolve kdf_q : qu.
Lemma comp_dh_secret_q : quiet comp_dh_secret.
Proof. intros. unfold comp_dh_secret. q_auto. Qed.
#[local] Hint Resolve comp_dh_secret_q : qu.
Lemma comp_th_2_q : quiet comp_th_2.
Proof. intros. unfold comp_th_2. q_auto. Qed.
#[local] Hint Resolve comp_th_2_q : qu.
Lemma comp_prk_2e_q : quiet comp_prk_2e.
Proof. intros. unfold comp_prk_2e. q_auto. Qed.
#[local] Hint Resolve comp_prk_2e_q : qu.
Lemma kdf_th_q : forall x len l n, quiet (kdf x len l get_th get_prk n).
Proof. intros. apply kdf_q; auto with qu. Qed.
#[local] Hint Resolve kdf_th_q : qu.
Lemma comp_salt_3e2m_q : forall n, quiet (comp_salt_3e2m n).
Proof. intros. unfold comp_salt_3e2m. q_auto. Qed.
#[local] Hint Resolve comp_salt_3e2m_q : qu.
Lemma agree_eph_q : forall p n, quiet (agree_eph p n).
Proof. intros. unfold agree_eph. q_auto. Qed.
#[local] Hint Resolve agree_eph_q : qu.
Lemma agree_static_q : forall p n, quiet (agree_static p n).
Proof. intros. unfold agree_static. q_auto. Qed.
#[local] Hint Resolve agree_static_q : qu.
Lemma comp_grx_q : forall a b n, quiet (comp_grx a b n).
Proof. intros. unfold comp_grx. q_auto. Qed.
#[local] Hint Resolve comp_grx_q : qu.
Lemma prk_static_q : forall s g n, (forall k, quiet (s k)) -> (forall k, quiet (g k)) -> quiet (prk_static s g n).
Proof. intros s g n H1 H2. unfold prk_static. q_auto. Qed.
#[local] Hint Resolve prk_static_q : qu.
Lemma comp_prk_3e2m_q : forall a b, quiet (comp_prk_3e2m a b).
Proof. intros. unfold comp_prk_3e2m. q_auto; apply prk_static_q; intros; auto with qu. Qed.
#[local] Hint Resolve comp_prk_3e2m_q : qu.
Lemma comp_plaintext_len_q : forall m n, quiet (comp_plaintext_len m n).
Proof. intros. unfold comp_plaintext_len. q_auto. Qed.
#[local] Hint Resolve comp_plaintext_len_q : qu.
Lemma fill_plaintext_q : forall a b c n, quiet (fill_plaintext a b c n).
Proof. intros. unfold fill_plaintext. q_auto. Qed.
#[local] Hint Resolve fill_plaintext_q : qu.
Lemma prepare_plaintext_2_q : forall a b n, quiet (prepare_plaintext_2 a b n).
Proof. intros. unfold prepare_plaintext_2. q_auto. Qed.
#[local] Hint Resolve prepare_plaintext_2_q : qu.
Lemma kdf_ks_q : forall x len l k n, quiet (kdf x len l get_th (ret k) n).
Proof. intros. apply kdf_q; auto with qu. Qed.
#[local] Hint Resolve kdf_ks_q : qu.
Lemma comp_keystream_q : forall a n, quiet (comp_keystream a n).
Proof. intros. unfold comp_keystream. q_auto. Qed.
#[local] Hint Resolve comp_keystream_q : qu.
Lemma prepare_message_2_q : forall a n, quiet (prepare_message_2 a n).
Proof. intros. unfold prepare_message_2. q_auto. Qed.
#[local] Hint Resolve prepare_message_2_q : qu.
Lemma comp_ciphertext_2_len_q : forall m, quiet (comp_ciphertext_2_len m).
Proof. intros. unfold comp_ciphertext_2_len. q_auto. Qed.
#[local] Hint Resolve comp_ciphertext_2_len_q : qu.
Lemma parse_msg_2_q : forall m n, quiet (parse_msg_2 m n).
Proof. intros. unfold parse_msg_2. q_auto. Qed.
#[local] Hint Resolve parse_msg_2_q : qu.
Lemma parse_id_cred_q : forall b i, quiet (parse_id_cred b i).
Proof. intros. unfold parse_id_cred. q_auto. Qed.
#[local] Hint Resolve parse_id_cred_q : qu.
Lemma store_tokens_q : forall l, quiet (store_tokens l).
Proof. intros. unfold store_tokens. q_auto. Qed.
#[local] Hint Resolve store_tokens_q : qu.
Lemma store_peer_cid_q : forall l, quiet (store_peer_cid l).
Proof. intros. unfold store_peer_cid. q_auto. Qed.
#[local] Hint Resolve store_peer_cid_q : qu.
Lemma parse_plaintext_2_q : forall p, quiet (parse_plaintext_2 p).
Proof. intros. unfold parse_plaintext_2. q_auto. Qed.
#[local] Hint Resolve parse_plaintext_2_q : qu.
Lemma comp_th_next_q : forall a b s m p, quiet (comp_th_next a b s m p).
Proof. intros. unfold comp_th_next. q_auto. Qed.
#[local] Hint Resolve comp_th_next_q : qu.
Lemma comp_th_3_q : forall m p, quiet (comp_th_3 m p).
Proof. intros. apply comp_th_next_q. Qed.
#[local] Hint Resolve comp_th_3_q : qu.
Lemma comp_salt_4e3m_q : forall n, quiet (comp_salt_4e3m n).
Proof. intros. unfold comp_salt_4e3m. q_auto. Qed.
#[local] Hint Resolve comp_salt_4e3m_q : qu.
Lemma comp_giy_q : forall a b n, quiet (comp_giy a b n).
Proof. intros. unfold comp_giy. q_auto. Qed.
#[local] Hint Resolve comp_giy_q : qu.
Lemma comp_prk_4e3m_q : forall a b, quiet (comp_prk_4e3m a b).
Proof. intros. unfold comp_prk_4e3m. q_auto; apply prk_static_q; intros; auto with qu. Qed.
#[local] Hint Resolve comp_prk_4e3m_q : qu.
Lemma prepare_plaintext_3_q : forall a b n, quiet (prepare_plaintext_3 a b n).
Proof. intros. unfold prepare_plaintext_3. q_auto. Qed.
#[local] Hint Resolve prepare_plaintext_3_q : qu.
Lemma expand_part_q : forall a b n, quiet (expand_part a b n).
Proof. intros. unfold expand_part. q_auto. Qed.
#[local] Hint Resolve expand_part_q : qu.
Lemma key_iv_aad_q : forall a b n, quiet (key_iv_aad a b n).
Proof. intros. unfold key_iv_aad. q_auto. Qed.
#[local] Hint Resolve key_iv_aad_q : qu.
Lemma comp_key_iv_aad_3_q : forall a b n, quiet (comp_key_iv_aad_3 a b n).
Proof. intros. unfold comp_key_iv_aad_3. q_auto. Qed.
#[local] Hint Resolve comp_key_iv_aad_3_q : qu.
Lemma comp_th_4_q : forall m p, quiet (comp_th_4 m p).
Proof. intros. apply comp_th_next_q. Qed.
#[local] Hint Resolve comp_th_4_q : qu.
Lemma gen_msg_3_q : forall a n, quiet (gen_msg_3 a n).
Proof. intros. unfold gen_msg_3. q_auto. Qed.
#[local] Hint Resolve gen_msg_3_q : qu.
Lemma parse_plaintext_3_q : forall p, quiet (parse_plaintext_3 p).
Proof. intros. unfold parse_plaintext_3. q_auto. Qed.
#[local] Hint Resolve parse_plaintext_3_q : qu.
Lemma prepare_plaintext_4_q : forall n, quiet (prepare_plaintext_4 n).
Proof. intros. unfold prepare_plaintext_4. q_auto. Qed.
#[local] Hint Resolve prepare_plaintext_4_q : qu.
Lemma compute_key_iv_aad_4_q : forall a b n, quiet (compute_key_iv_aad_4 a b n).
Proof. intros. unfold compute_key_iv_aad_4. q_auto. Qed.
#[local] Hint Resolve compute_key_iv_aad_4_q : qu.
Lemma kdf_into_prk_q : forall a b cx, quiet cx -> quiet (kdf_into_prk a b cx).
Proof. intros a b cx H1. unfold kdf_into_prk. q_auto. Qed.
#[local] Hint Resolve kdf_into_prk_q : qu.
Lemma compute_prk_out_q : quiet compute_prk_out.
Proof. unfold compute_prk_out. q_auto; apply kdf_into_prk_q; auto with qu. Qed.
#[local] Hint Resolve compute_prk_out_q : qu.
Lemma compute_new_prk_out_q : forall e, quiet (compute_new_prk_out e).
Proof. intros. unfold compute_new_prk_out. q_auto; apply kdf_into_prk_q; auto with qu. Qed.
#[local] Hint Resolve compute_new_prk_out_q : qu.
Lemma compute_prk_exporter_q : forall n, quiet (compute_prk_exporter n).
Proof. intros. unfold compute_prk_exporter. q_auto. Qed.
#[local] Hint Resolve compute_prk_exporter_q : qu.
Lemma export_prk_exporter_q : forall nn l n, quiet (export_prk_exporter nn l n).
Proof. intros. unfold export_prk_exporter. q_auto. Qed.
#[local] Hint Resolve export_prk_exporter_q : qu.
End Quiet.
#[export] Hint Resolve fetch_q cverify_q compose_q process_q ead_compose_q ead_process_q alloc_q free_q import_q destroy_q agree_q extract_q expand_q 
  hash_q frees_q rd_q rd_ptr_q rd_tok_q get_suite_q get_th_q get_prk_q get_dh_pub_q get_dh_priv_q get_dh_peer_q get_dh_secret_q put_th_q put_prk_q put_dh_pub_q put_dh_priv_q put_dh_peer_q put_dh_secret_q comp_id_cred_len_q comp_cred_len_q read_toks_q encode_tokens_q kid_compact_q id_cred_of_q cred_bytes_q comp_mac_context_length_q comp_mac_context_q comp_mac_length_q comp_sign_or_mac_length_q comp_mac_q hash_into_th_q kdf_q comp_dh_secret_q comp_th_2_q comp_prk_2e_q kdf_th_q comp_salt_3e2m_q agree_eph_q agree_static_q comp_grx_q prk_static_q comp_prk_3e2m_q comp_plaintext_len_q fill_plaintext_q prepare_plaintext_2_q kdf_ks_q comp_keystream_q prepare_message_2_q comp_ciphertext_2_len_q parse_msg_2_q parse_id_cred_q store_tokens_q store_peer_cid_q parse_plaintext_2_q comp_th_next_q comp_th_3_q comp_salt_4e3m_q comp_giy_q comp_prk_4e3m_q prepare_plaintext_3_q expand_part_q key_iv_aad_q comp_key_iv_aad_3_q comp_th_4_q gen_msg_3_q parse_plaintext_3_q prepare_plaintext_4_q compute_key_iv_aad_4_q kdf_into_prk_q compute_prk_out_q compute_new_prk_out_q compute_prk_exporter_q export_prk_exporter_q : qu.

(** ** How often *)
Inductive kind := KPair | KSign | KVerify | KEnc | KDec.
Definition of_kind (k : kind) (e : event) : bool :=
  match k, e with
  | KPair, EvMkPair _ _ _ _ | KSign, EvSign _ _ _ _ | KVerify, EvVerify _ _ _ _
  | KEnc, EvEncrypt _ _ _ _ _ _ | KDec, EvDecrypt _ _ _ _ _ _ => true
  | _, _ => false
  end.
Section Upto.
Context {E : env}.
Variable k : kind.
Notation up := (upto (of_kind k)).
Lemma bind_u : forall a b n A B (m : M A) (f : A -> M B), up a m -> (forall x, up b (f x)) -> (a + b <= n)%nat -> up n (bind m f).
Proof.
  intros a b n A B m f H1 H2 Hn w. specialize (H1 w). unfold bind. destruct (m w) as [x w1|]; [|exact I].
  destruct H1 as (e1 & T1 & F1). specialize (H2 x w1). destruct (f x w1) as [y w2|]; [|exact I].
  destruct H2 as (e2 & T2 & F2). exists (e2 ++ e1). rewrite T2, T1, filter_app, app_length. split; [apply app_assoc|lia].
Qed.
Lemma bind_u0 : forall n A B (m : M A) (f : A -> M B), up 0 m -> (forall x, up n (f x)) -> up n (bind m f).
Proof. intros n A B m f H1 H2. now apply (bind_u 0 n). Qed.
Lemma quiet_u : forall A (m : M A) n, quiet m -> up n m.
Proof.
  intros A m n H w. specialize (H w). destruct (m w) as [a w'|]; [|exact I]. destruct H as (e & T & F). exists e. split; [exact T|].
  replace (filter (of_kind k) e) with (@nil event); [apply Nat.le_0_l|]. symmetry. clear T.
  induction e as [|x e IH]; [reflexivity|]. cbn [filter] in *. destruct (of_kind k x) eqn:K.
  - assert (asking x = true) by (destruct k, x; try discriminate K; reflexivity). rewrite H in F. discriminate.
  - destruct (asking x); [discriminate|]. now apply IH.
Qed.
Lemma emit_u : forall e n, ((if of_kind k e then 1 else 0) <= n)%nat -> up n (emit e).
Proof. intros e n H w. exists [e]. split; [reflexivity|]. cbn [filter]. destruct (of_kind k e); cbn [length]; lia. Qed.
End Upto.
Ltac u_leaf := first [ apply emit_u; cbn [of_kind]; lia | solve [auto 2 with up nocore] ].
Ltac u_all :=
  lazymatch goal with
  | |- upto _ _ (bind _ _) =>
      first [ apply bind_u0; [solve [apply quiet_u; q_auto | u_all]|intro; u_all]
            | apply (bind_u _ 1%nat 0%nat _); [solve [u_all]|intro; u_all|apply le_n] ]
  | |- upto _ _ (if ?b then _ else _) => split_bool b; u_all
  | |- upto _ _ (match ?x with _ => _ end) => destruct x; u_all
  | |- upto _ _ (let _ := _ in _) => cbv zeta; u_all
  | |- upto _ _ _ => first [apply quiet_u; solve [q_auto] | u_leaf]
  end.

Section Calls.
Context {E : env}.
Definition is_k (k k' : kind) : nat := match k, k' with KPair, KPair | KSign, KSign | KVerify, KVerify | KEnc, KEnc | KDec, KDec => 1 | _, _ => 0 end.
Lemma mkpair_u : forall k a b c, upto (of_kind k) (is_k KPair k) (call_mkpair a b c).
Proof. intros [] a b c; unfold call_mkpair, out_ok, is_k; u_all. Qed.
Lemma sign_u : forall k a b c, upto (of_kind k) (is_k KSign k) (call_sign a b c).
Proof. intros [] a b c; unfold call_sign, out_ok, is_k; u_all. Qed.
Lemma verify_u : forall k a b c, upto (of_kind k) (is_k KVerify k) (call_verify a b c).
Proof. intros [] a b c; unfold call_verify, out_ok, is_k; u_all. Qed.
Lemma encrypt_u : forall k a b c d n, upto (of_kind k) (is_k KEnc k) (call_encrypt a b c d n).
Proof. intros [] a b c d n; unfold call_encrypt, out_ok, is_k; u_all. Qed.
Lemma decrypt_u : forall k a b c d n, upto (of_kind k) (is_k KDec k) (call_decrypt a b c d n).
Proof. intros [] a b c d n; unfold call_decrypt, out_ok, is_k; u_all. Qed.
#[local] Hint Extern 1 (upto _ _ (call_mkpair _ _ _)) => (apply mkpair_u) : up.
#[local] Hint Extern 1 (upto _ _ (call_sign _ _ _)) => (apply sign_u) : up.
#[local] Hint Extern 1 (upto _ _ (call_verify _ _ _)) => (apply verify_u) : up.
#[local] Hint Extern 1 (upto _ _ (call_encrypt _ _ _ _ _)) => (apply encrypt_u) : up.
#[local] Hint Extern 1 (upto _ _ (call_decrypt _ _ _ _ _)) => (apply decrypt_u) : up.
Lemma gen_dh_keys_u : forall k, upto (of_kind k) (is_k KPair k) gen_dh_keys.
Proof. intros []; unfold gen_dh_keys, is_k; u_all. Qed.
Lemma sign_cose_sign_1_u : forall k cr m mac n, upto (of_kind k) (is_k KSign k) (sign_cose_sign_1 cr m mac n).
Proof. intros [] cr m mac n; unfold sign_cose_sign_1, is_k; u_all. Qed.
Lemma verify_cose_sign_1_u : forall k m a b c, upto (of_kind k) (is_k KVerify k) (verify_cose_sign_1 m a b c).
Proof. intros [] m a b c; unfold verify_cose_sign_1, is_k; u_all. Qed.
#[local] Hint Extern 1 (upto _ _ gen_dh_keys) => (apply gen_dh_keys_u) : up.
#[local] Hint Extern 1 (upto _ _ (sign_cose_sign_1 _ _ _ _)) => (apply sign_cose_sign_1_u) : up.
#[local] Hint Extern 1 (upto _ _ (verify_cose_sign_1 _ _ _ _)) => (apply verify_cose_sign_1_u) : up.
Lemma comp_sign_or_mac_u : forall k cr m mac n, upto (of_kind k) (is_k KSign k) (comp_sign_or_mac cr m mac n).
Proof. intros [] cr m mac n; unfold comp_sign_or_mac, is_k; u_all. Qed.
Lemma verify_sign_or_mac_u : forall k m a b c, upto (of_kind k) (is_k KVerify k) (verify_sign_or_mac m a b c).
Proof. intros [] m a b c; unfold verify_sign_or_mac, is_k; u_all. Qed.
Lemma aead_encrypt_u : forall k a b c d n, upto (of_kind k) (is_k KEnc k) (aead_encrypt a b c d n).
Proof. intros [] a b c d n; unfold aead_encrypt, is_k; u_all. Qed.
Lemma aead_decrypt_u : forall k a b c d n, upto (of_kind k) (is_k KDec k) (aead_decrypt a b c d n).
Proof. intros [] a b c d n; unfold aead_decrypt, is_k; u_all. Qed.
#[local] Hint Extern 1 (upto _ _ (comp_sign_or_mac _ _ _ _)) => (apply comp_sign_or_mac_u) : up.
#[local] Hint Extern 1 (upto _ _ (verify_sign_or_mac _ _ _ _)) => (apply verify_sign_or_mac_u) : up.
#[local] Hint Extern 1 (upto _ _ (aead_encrypt _ _ _ _ _)) => (apply aead_encrypt_u) : up.
#[local] Hint Extern 1 (upto _ _ (aead_decrypt _ _ _ _ _)) => (apply aead_decrypt_u) : up.
Lemma comp_ciphertext_u : forall k a b c d n, upto (of_kind k) (is_k KEnc k) (comp_ciphertext a b c d n).
Proof. intros [] a b c d n; unfold comp_ciphertext, is_k; u_all. Qed.
Lemma decrypt_ciphertext_3_u : forall k a b c d n, upto (of_kind k) (is_k KDec k) (decrypt_ciphertext_3 a b c d n).
Proof. intros [] a b c d n; unfold decrypt_ciphertext_3, is_k; u_all. Qed.
#[local] Hint Extern 1 (upto _ _ (comp_ciphertext _ _ _ _ _)) => (apply comp_ciphertext_u) : up.
#[local] Hint Extern 1 (upto _ _ (decrypt_ciphertext_3 _ _ _ _ _)) => (apply decrypt_ciphertext_3_u) : up.
Lemma m1_compose_u : forall k nn n, upto (of_kind k) (is_k KPair k) (message_1_compose nn n).
Proof. intros [] nn n; unfold message_1_compose, enter, is_k; u_all. Qed.
Lemma m1_process_u : forall k nn m, upto (of_kind k) 0 (message_1_process nn m).
Proof. intros [] nn m; unfold message_1_process, enter; u_all. Qed.
Lemma m2_compose_u : forall k nn n, upto (of_kind k) (is_k KPair k + is_k KSign k) (message_2_compose nn n).
Proof. intros [] nn n; unfold message_2_compose, enter, fail, is_k; cbn [Nat.add]; u_all. Qed.
Lemma m2_process_u : forall k nn m, upto (of_kind k) (is_k KVerify k) (message_2_process nn m).
Proof. intros [] nn m; unfold message_2_process, enter, failp, is_k; cbn [Nat.add]; u_all. Qed.
Lemma m3_compose_u : forall k nn n, upto (of_kind k) (is_k KSign k + is_k KEnc k) (message_3_compose nn n).
Proof. intros [] nn n; unfold message_3_compose, enter, fail, is_k; cbn [Nat.add]; u_all. Qed.
Lemma m3_process_u : forall k nn m, upto (of_kind k) (is_k KVerify k + is_k KDec k) (message_3_process nn m).
Proof. intros [] nn m; unfold message_3_process, enter, failp, is_k; cbn [Nat.add]; u_all. Qed.
Lemma m4_compose_u : forall k nn n, upto (of_kind k) (is_k KEnc k) (message_4_compose nn n).
Proof. intros [] nn n; unfold message_4_compose, enter, fail, is_k; cbn [Nat.add]; u_all. Qed.
Lemma m4_process_u : forall k nn m, upto (of_kind k) (is_k KDec k) (message_4_process nn m).
Proof. intros [] nn m; unfold message_4_process, enter, failp, is_k; cbn [Nat.add]; u_all. Qed.
Lemma export_u : forall k nn l n, upto (of_kind k) 0 (export_prk_exporter nn l n).
Proof. intros. apply quiet_u, export_prk_exporter_q. Qed.
Lemma update_u : forall k nn e, upto (of_kind k) 0 (export_key_update nn e).
Proof. intros. apply quiet_u. unfold export_key_update. q_auto. Qed.
Lemma oscore_u : forall k nn a b c d, upto (of_kind k) 0 (export_oscore_session nn a b c d).
Proof. intros. apply quiet_u. unfold export_oscore_session. q_auto. Qed.
End Calls.
