(** Working buffers never outgrow the message they are for.  No code of /repo is modelled here. *)
From Verif Require Import Monad Api Common Msg1 Msg2 Msg3 Msg4 History Logic Frame Spec HistoryProofs Facts Rfc Wire Received CborProofs RfcProofs WireProofs Sym Safety MemProofs MemProofs2 Work Early WorkProofs Burden.
From Coq Require Import Lia.

Section Burden.
Context {E : env}.
Variables N K : Z.
Definition modest (ev : event) : Prop :=
  match ev with EvAlloc b n _ => takes_received b = true -> 0 <= n /\ n + K <= N | _ => True end.
Definition fine {A} (m : M A) : Prop := forall w a w', m w = Ret a w' -> exists e, w_tr w' = e ++ w_tr w /\ Forall modest e.
Lemma fine_bind : forall A B (m : M A) (k : A -> M B), fine m -> (forall a, fine (k a)) -> fine (bind m k).
Proof.
  intros A B m k H1 H2 w b w' R. apply bind_inv in R as (a & w1 & R1 & R2). destruct (H1 _ _ _ R1) as (e1 & X1 & Y1).
  destruct (H2 _ _ _ _ R2) as (e2 & X2 & Y2). exists (e2 ++ e1). rewrite X2, X1. split; [apply app_assoc|]. apply Forall_app. now split.
Qed.
Lemma fine_assoc : forall A B C (m : M A) (k : A -> M B) (h : B -> M C), fine (bind m (fun a => bind (k a) h)) -> fine (bind (bind m k) h).
Proof. intros A B C m k h H w c w' R. apply (H w c w'). unfold bind in *. destruct (m w); [exact R|discriminate]. Qed.
Lemma fine_retb : forall A B (a : A) (k : A -> M B), fine (k a) -> fine (bind (ret a) k). Proof. intros A B a k H. exact H. Qed.
Lemma fine_same : forall A (m : M A), (forall w a w', m w = Ret a w' -> w_tr w' = w_tr w) -> fine m.
Proof. intros A m H w a w' R. exists []. split; [exact (H _ _ _ R)|constructor]. Qed.
Lemma ret_o : forall A (a : A), fine (ret a). Proof. intros. apply fine_same. intros ? ? ? R. now inversion R. Qed.
Lemma fault_o : forall A u, fine (@fault A u). Proof. intros. apply fine_same. intros ? ? ? R. discriminate. Qed.
Lemma trace_o : fine trace. Proof. intros. apply fine_same. intros ? ? ? R. now inversion R. Qed.
Lemma getc_o : fine getc. Proof. intros. apply fine_same. intros ? ? ? R. now inversion R. Qed.
Lemma modify_o : forall f, fine (modify f). Proof. intros. apply fine_same. intros ? ? ? R. now inversion R. Qed.
Lemma check_o : forall b u, fine (check b u). Proof. intros. apply fine_same. intros ? ? ? R. apply check_inv in R. now destruct R as [_ ->]. Qed.
Lemma need_o : forall A (o : option A) u, fine (need o u). Proof. intros. apply fine_same. intros ? ? ? R. apply need_inv in R. now destruct R as [_ ->]. Qed.
Lemma emit_o : forall ev, modest ev -> fine (emit ev).
Proof. intros ev H w a w' R. inversion R; subst. exists [ev]. split; [reflexivity|]. constructor; [exact H|constructor]. Qed.
Create HintDb fine discriminated.
#[local] Hint Constants Opaque : fine.
#[local] Hint Transparent bytes M : fine.
#[local] Hint Resolve ret_o fault_o trace_o getc_o modify_o check_o need_o : fine.
Lemma alloc_o : forall b n, (takes_received b = true -> 0 <= n /\ n + K <= N) -> fine (alloc b n).
Proof.
  intros b n H. unfold alloc. destruct cf_stack.
  - apply fine_bind; [apply check_o|intros _]. apply fine_bind; [apply emit_o; exact H|intros _]. apply ret_o.
  - apply fine_bind; [apply trace_o|intro]. cbv zeta. apply fine_bind; [apply emit_o; exact H|intros _]. apply ret_o.
Qed.
Ltac o_alloc := apply alloc_o; first [discriminate | intros _; assumption].
Ltac o_step :=
  cbn [fst snd];
  lazymatch goal with
  | |- fine (bind (ret _) _) => apply fine_retb
  | |- fine (bind (bind _ _) _) => apply fine_assoc
  | |- fine (bind (if ?b then _ else _) _) => destruct b
  | |- fine (bind (match ?x with _ => _ end) _) => destruct x
  | |- fine (bind (let _ := _ in _) _) => cbv zeta
  | |- fine (bind (alloc _ _) _) => apply fine_bind; [o_alloc|intro]
  | |- fine (bind (emit _) _) => apply fine_bind; [apply emit_o; exact I|intro]
  | |- fine (bind _ _) => apply fine_bind; [solve [eauto 4 with fine nocore]|intro]
  | |- fine (ret _) => apply ret_o
  | |- fine (fault _) => apply fault_o
  | |- fine (emit _) => apply emit_o; exact I
  | |- fine (fail _ _) => unfold fail
  | |- fine (failp _ _) => unfold failp
  | |- fine (if ?b then _ else _) => destruct b
  | |- fine (match ?x with _ => _ end) => destruct x
  | |- fine (let _ := _ in _) => cbv zeta
  | |- fine ((fun _ => _) _) => cbv beta
  | |- fine _ => solve [eauto 4 with fine nocore]
  end.
Ltac o_auto := repeat o_step.
Lemma import_o : forall a b, fine (call_import a b). Proof. intros. unfold call_import. o_auto. Qed.
Lemma destroy_o : forall a, fine (call_destroy a). Proof. intros. unfold call_destroy. o_auto. Qed.
Lemma mkpair_o : forall a b c, fine (call_mkpair a b c). Proof. intros. unfold call_mkpair, out_ok. o_auto. Qed.
Lemma agree_o : forall a b c, fine (call_agree a b c). Proof. intros. unfold call_agree, out_ok. o_auto. Qed.
Lemma sign_o : forall a b c, fine (call_sign a b c). Proof. intros. unfold call_sign, out_ok. o_auto. Qed.
Lemma verify_o : forall a b c, fine (call_verify a b c). Proof. intros. unfold call_verify. o_auto. Qed.
Lemma extract_o : forall a b c, fine (call_extract a b c). Proof. intros. unfold call_extract, out_ok. o_auto. Qed.
Lemma expand_o : forall a b c, fine (call_expand a b c). Proof. intros. unfold call_expand, out_ok. o_auto. Qed.
Lemma encrypt_o : forall a b c d f, fine (call_encrypt a b c d f). Proof. intros. unfold call_encrypt, out_ok. o_auto. Qed.
Lemma decrypt_o : forall a b c d f, fine (call_decrypt a b c d f). Proof. intros. unfold call_decrypt, out_ok. o_auto. Qed.
Lemma hash_o : forall a b, fine (call_hash a b). Proof. intros. unfold call_hash, out_ok. o_auto. Qed.
Lemma fetch_o : fine call_fetch. Proof. unfold call_fetch. o_auto. Qed.
Lemma cverify_o : forall a, fine (call_cverify a). Proof. intros. unfold call_cverify. o_auto. Qed.
Lemma ccompose_o : forall a b c, fine (call_compose a b c). Proof. intros. unfold call_compose. o_auto. Qed.
Lemma cprocess_o : forall a b c, fine (call_process a b c). Proof. intros. unfold call_process. o_auto. Qed.
Lemma free_o : forall a, fine (free a). Proof. intros. unfold free. o_auto. Qed.
Lemma get_suite_o : fine get_suite. Proof. unfold get_suite. o_auto. Qed.
#[local] Hint Resolve import_o destroy_o mkpair_o agree_o sign_o verify_o extract_o expand_o encrypt_o decrypt_o hash_o fetch_o
  cverify_o ccompose_o cprocess_o free_o get_suite_o : fine.
Lemma rd_o : forall a b c, fine (rd a b c).
Proof. intros. unfold rd. o_auto. Qed.
#[local] Hint Resolve rd_o : fine.
Lemma rd_ptr_o : forall a b, fine (rd_ptr a b).
Proof. intros. unfold rd_ptr. o_auto. Qed.
#[local] Hint Resolve rd_ptr_o : fine.
Lemma rd_tok_o : forall a b, fine (rd_tok a b).
Proof. intros. unfold rd_tok. o_auto. Qed.
#[local] Hint Resolve rd_tok_o : fine.
Lemma get_th_o : fine (get_th).
Proof. intros. unfold get_th. o_auto. Qed.
#[local] Hint Resolve get_th_o : fine.
Lemma get_prk_o : fine (get_prk).
Proof. intros. unfold get_prk. o_auto. Qed.
#[local] Hint Resolve get_prk_o : fine.
Lemma get_dh_pub_o : fine (get_dh_pub).
Proof. intros. unfold get_dh_pub. o_auto. Qed.
#[local] Hint Resolve get_dh_pub_o : fine.
Lemma get_dh_priv_o : fine (get_dh_priv).
Proof. intros. unfold get_dh_priv. o_auto. Qed.
#[local] Hint Resolve get_dh_priv_o : fine.
Lemma get_dh_peer_o : fine (get_dh_peer).
Proof. intros. unfold get_dh_peer. o_auto. Qed.
#[local] Hint Resolve get_dh_peer_o : fine.
Lemma get_dh_secret_o : fine (get_dh_secret).
Proof. intros. unfold get_dh_secret. o_auto. Qed.
#[local] Hint Resolve get_dh_secret_o : fine.
Lemma put_th_o : forall a, fine (put_th a).
Proof. intros. unfold put_th, wr. o_auto. Qed.
#[local] Hint Resolve put_th_o : fine.
Lemma put_prk_o : forall a, fine (put_prk a).
Proof. intros. unfold put_prk, wr. o_auto. Qed.
#[local] Hint Resolve put_prk_o : fine.
Lemma put_dh_pub_o : forall a, fine (put_dh_pub a).
Proof. intros. unfold put_dh_pub, wr. o_auto. Qed.
#[local] Hint Resolve put_dh_pub_o : fine.
Lemma put_dh_priv_o : forall a, fine (put_dh_priv a).
Proof. intros. unfold put_dh_priv, wr. o_auto. Qed.
#[local] Hint Resolve put_dh_priv_o : fine.
Lemma put_dh_peer_o : forall a, fine (put_dh_peer a).
Proof. intros. unfold put_dh_peer, wr. o_auto. Qed.
#[local] Hint Resolve put_dh_peer_o : fine.
Lemma put_dh_secret_o : forall a, fine (put_dh_secret a).
Proof. intros. unfold put_dh_secret, wr. o_auto. Qed.
#[local] Hint Resolve put_dh_secret_o : fine.
Lemma frees_o : forall l, fine (frees l).
Proof. induction l; cbn [frees]; o_auto. Qed.
#[local] Hint Resolve frees_o : fine.
Lemma comp_id_cred_len_o : forall a, fine (comp_id_cred_len a).
Proof. intros. unfold comp_id_cred_len. o_auto. Qed.
#[local] Hint Resolve comp_id_cred_len_o : fine.
Lemma comp_cred_len_o : forall a, fine (comp_cred_len a).
Proof. intros. unfold comp_cred_len. o_auto. Qed.
#[local] Hint Resolve comp_cred_len_o : fine.
Lemma read_toks_o : forall p l, fine (read_toks p l).
Proof. induction l; cbn [read_toks]; o_auto. Qed.
#[local] Hint Resolve read_toks_o : fine.
Lemma encode_tokens_o : forall p n l, fine (encode_tokens p n l).
Proof. intros. unfold encode_tokens. o_auto. Qed.
#[local] Hint Resolve encode_tokens_o : fine.
Lemma kid_compact_encoding_o : forall a, fine (kid_compact_encoding a).
Proof. intros. unfold kid_compact_encoding. o_auto. Qed.
#[local] Hint Resolve kid_compact_encoding_o : fine.
Lemma id_cred_of_o : forall a, fine (id_cred_of a).
Proof. intros. unfold id_cred_of. o_auto. Qed.
#[local] Hint Resolve id_cred_of_o : fine.
Lemma cred_bytes_o : forall a n, fine (cred_bytes a n).
Proof. intros. unfold cred_bytes. o_auto. Qed.
#[local] Hint Resolve cred_bytes_o : fine.
Lemma comp_mac_context_length_o : forall a, fine (comp_mac_context_length a).
Proof. intros. unfold comp_mac_context_length. o_auto. Qed.
#[local] Hint Resolve comp_mac_context_length_o : fine.
Lemma comp_mac_context_o : forall a n, fine (comp_mac_context a n).
Proof. intros. unfold comp_mac_context. o_auto. Qed.
#[local] Hint Resolve comp_mac_context_o : fine.
Lemma comp_mac_length_o : fine (comp_mac_length).
Proof. intros. unfold comp_mac_length. o_auto. Qed.
#[local] Hint Resolve comp_mac_length_o : fine.
Lemma comp_mac_o : forall m n, fine (comp_mac m n).
Proof. intros. unfold comp_mac. o_auto. Qed.
#[local] Hint Resolve comp_mac_o : fine.
Lemma verify_cose_sign_1_o : forall m a b c, fine (verify_cose_sign_1 m a b c).
Proof. intros. unfold verify_cose_sign_1. o_auto. Qed.
#[local] Hint Resolve verify_cose_sign_1_o : fine.
Lemma verify_sign_or_mac_o : forall m a b c, fine (verify_sign_or_mac m a b c).
Proof. intros. unfold verify_sign_or_mac. o_auto. Qed.
#[local] Hint Resolve verify_sign_or_mac_o : fine.
Lemma hash_into_th_o : forall i _n, fine (hash_into_th _n i).
Proof. intros. unfold hash_into_th. o_auto. Qed.
#[local] Hint Resolve hash_into_th_o : fine.
Lemma kdf_o : forall x len l cx k n, fine cx -> fine k -> fine (kdf x len l cx k n).
Proof. intros. unfold kdf. o_auto. Qed.
#[local] Hint Resolve kdf_o : fine.
Lemma comp_dh_secret_o : fine (comp_dh_secret).
Proof. intros. unfold comp_dh_secret. o_auto. Qed.
#[local] Hint Resolve comp_dh_secret_o : fine.
Lemma comp_th_2_o : fine (comp_th_2).
Proof. intros. unfold comp_th_2. o_auto. Qed.
#[local] Hint Resolve comp_th_2_o : fine.
Lemma comp_prk_2e_o : fine (comp_prk_2e).
Proof. intros. unfold comp_prk_2e. o_auto. Qed.
#[local] Hint Resolve comp_prk_2e_o : fine.
Lemma comp_salt_3e2m_o : forall n, fine (comp_salt_3e2m n).
Proof. intros. unfold comp_salt_3e2m. o_auto. Qed.
#[local] Hint Resolve comp_salt_3e2m_o : fine.
Lemma agree_eph_o : forall p _n, fine (agree_eph p _n).
Proof. intros. unfold agree_eph. o_auto. Qed.
#[local] Hint Resolve agree_eph_o : fine.
Lemma agree_static_o : forall a _n, fine (agree_static a _n).
Proof. intros. unfold agree_static. o_auto. Qed.
#[local] Hint Resolve agree_static_o : fine.
Lemma comp_grx_o : forall a b _n, fine (comp_grx a b _n).
Proof. intros. unfold comp_grx. o_auto. Qed.
#[local] Hint Resolve comp_grx_o : fine.
Lemma prk_static_o : forall s' g n, (forall z, fine (s' z)) -> (forall z, fine (g z)) -> fine (prk_static s' g n).
Proof. intros. unfold prk_static. o_auto. Qed.
#[local] Hint Resolve prk_static_o : fine.
Lemma comp_prk_3e2m_o : forall a b, fine (comp_prk_3e2m a b).
Proof. intros. unfold comp_prk_3e2m. o_auto. Qed.
#[local] Hint Resolve comp_prk_3e2m_o : fine.
Lemma comp_keystream_o : forall a n, fine (comp_keystream a n).
Proof. intros. unfold comp_keystream. o_auto. Qed.
#[local] Hint Resolve comp_keystream_o : fine.
Lemma comp_ciphertext_2_len_o : forall m, fine (comp_ciphertext_2_len m).
Proof. intros. unfold comp_ciphertext_2_len. o_auto. Qed.
#[local] Hint Resolve comp_ciphertext_2_len_o : fine.
Lemma parse_msg_2_o : forall m n, fine (parse_msg_2 m n).
Proof. intros. unfold parse_msg_2. o_auto. Qed.
#[local] Hint Resolve parse_msg_2_o : fine.
Lemma parse_id_cred_o : forall b i, fine (parse_id_cred b i).
Proof. intros. unfold parse_id_cred. o_auto. Qed.
#[local] Hint Resolve parse_id_cred_o : fine.
Lemma store_tokens_o : forall l, fine (store_tokens l).
Proof. intros. unfold store_tokens. o_auto. Qed.
#[local] Hint Resolve store_tokens_o : fine.
Lemma store_peer_cid_o : forall l, fine (store_peer_cid l).
Proof. intros. unfold store_peer_cid. o_auto. Qed.
#[local] Hint Resolve store_peer_cid_o : fine.
Lemma parse_plaintext_2_o : forall p, fine (parse_plaintext_2 p).
Proof. intros. unfold parse_plaintext_2. o_auto. Qed.
#[local] Hint Resolve parse_plaintext_2_o : fine.
Lemma comp_th_next_o : forall a b s m p, fine (comp_th_next a b s m p).
Proof. intros. unfold comp_th_next. o_auto. Qed.
#[local] Hint Resolve comp_th_next_o : fine.
Lemma comp_th_3_o : forall m p, fine (comp_th_3 m p).
Proof. intros. unfold comp_th_3. o_auto. Qed.
#[local] Hint Resolve comp_th_3_o : fine.
Lemma comp_th_4_o : forall m p, fine (comp_th_4 m p).
Proof. intros. unfold comp_th_4. o_auto. Qed.
#[local] Hint Resolve comp_th_4_o : fine.
Lemma comp_salt_4e3m_o : forall n, fine (comp_salt_4e3m n).
Proof. intros. unfold comp_salt_4e3m. o_auto. Qed.
#[local] Hint Resolve comp_salt_4e3m_o : fine.
Lemma comp_giy_o : forall a b _n, fine (comp_giy a b _n).
Proof. intros. unfold comp_giy. o_auto. Qed.
#[local] Hint Resolve comp_giy_o : fine.
Lemma comp_prk_4e3m_o : forall a b, fine (comp_prk_4e3m a b).
Proof. intros. unfold comp_prk_4e3m. o_auto. Qed.
#[local] Hint Resolve comp_prk_4e3m_o : fine.
Lemma expand_part_o : forall a b n, fine (expand_part a b n).
Proof. intros. unfold expand_part. o_auto. Qed.
#[local] Hint Resolve expand_part_o : fine.
Lemma key_iv_aad_o : forall a b n, fine (key_iv_aad a b n).
Proof. intros. unfold key_iv_aad. o_auto. Qed.
#[local] Hint Resolve key_iv_aad_o : fine.
Lemma comp_key_iv_aad_3_o : forall a b n, fine (comp_key_iv_aad_3 a b n).
Proof. intros. unfold comp_key_iv_aad_3. o_auto. Qed.
#[local] Hint Resolve comp_key_iv_aad_3_o : fine.
Lemma aead_decrypt_o : forall a b c d n, fine (aead_decrypt a b c d n).
Proof. intros. unfold aead_decrypt. o_auto. Qed.
#[local] Hint Resolve aead_decrypt_o : fine.
Lemma decrypt_ciphertext_3_o : forall a b c d n, fine (decrypt_ciphertext_3 a b c d n).
Proof. intros. unfold decrypt_ciphertext_3. o_auto. Qed.
#[local] Hint Resolve decrypt_ciphertext_3_o : fine.
Lemma parse_plaintext_3_o : forall p, fine (parse_plaintext_3 p).
Proof. intros. unfold parse_plaintext_3. o_auto. Qed.
#[local] Hint Resolve parse_plaintext_3_o : fine.
Lemma compute_key_iv_aad_4_o : forall a b n, fine (compute_key_iv_aad_4 a b n).
Proof. intros. unfold compute_key_iv_aad_4. o_auto. Qed.
#[local] Hint Resolve compute_key_iv_aad_4_o : fine.
Lemma ead_process_o : fine (ead_process).
Proof. intros. unfold ead_process. o_auto. Qed.
#[local] Hint Resolve ead_process_o : fine.

(** ** Whole calls *)
Definition fine_at {A} (m : M A) (w : world) : Prop := forall a w', m w = Ret a w' -> exists e, w_tr w' = e ++ w_tr w /\ Forall modest e.
Lemma at_fine : forall A (m : M A) w, fine m -> fine_at m w. Proof. intros A m w H a w' R. exact (H _ _ _ R). Qed.
Lemma at_getc : forall A (k : ctx -> M A) w, fine_at (k (w_ctx w)) w -> fine_at (bind getc k) w. Proof. intros A k w H. exact H. Qed.
Lemma at_enter : forall A x y (m : M A) w, (forall c, the_suite c = the_suite (w_ctx w) -> fine_at m (Wd c (w_tr w))) -> fine_at (enter x y ;;; m) w.
Proof. intros A x y m w H. unfold enter. intros a w' R. refine (H (set_role y (set_message x (set_error EC_UNSPECIFIED (set_status SM_ABORTED (w_ctx w))))) eq_refl a w' R). Qed.
Lemma at_suite : forall A (k : csuite -> M A) w, fine_at (k (the_suite (w_ctx w))) w -> fine_at (bind get_suite k) w.
Proof. intros A k w H a w' R. apply bind_inv in R as (s & w1 & R1 & R2). apply suite_run in R1 as [-> ->]. exact (H _ _ R2). Qed.
Lemma at_assoc : forall A B C (m : M A) (k : A -> M B) (h : B -> M C) w, fine_at (bind m (fun a => bind (k a) h)) w -> fine_at (bind (bind m k) h) w.
Proof. intros A B C m k h w H c w' R. apply (H c w'). unfold bind in *. destruct (m w); [exact R|discriminate]. Qed.
Lemma mod_fit : forall n k, 0 <= k -> k <= n -> n <= N -> K = k -> 0 <= size_sub n k /\ size_sub n k + K <= N.
Proof.
  intros n k H1 H2 H3 ->. unfold size_sub. pose proof (Z.mod_pos_bound (n - k) (2 ^ 64) eq_refl). pose proof (Z.mod_le (n - k) (2 ^ 64)). lia.
Qed.
Lemma len_2 : forall msg z, N = zlen msg -> 0 <= K -> wf_bytes msg -> reaches K msg -> dec_message_2 msg = Some z ->
  0 <= size_sub (zs_len z) K /\ size_sub (zs_len z) K + K <= N.
Proof.
  intros msg z HN P W R D. unfold dec_message_2 in D. destruct (dec_str_p _ _ _ _) as [[ok z'] s'] eqn:Q. destruct ok; [|discriminate]. inversion D; subst z'.
    destruct (str_p_sound _ _ _ _ _ _ Q W) as (h & r & Z1 & Z2 & Z3 & Z4 & Z5 & Z6 & _).
    assert (CA : carries msg [Bstr (take (zs_len z) r)]).
    { exists (h ++ take (zs_len z) r), (d_rest s'). split; [exact Z3|]. rewrite <- (app_nil_r (h ++ _)). constructor; [|constructor].
      constructor. rewrite zlen_take by lia. exact Z4. }
    apply R in CA. rewrite zlen_take in CA by lia. apply mod_fit; try lia; auto.
    change (msg = (h ++ take (zs_len z) r) ++ d_rest s') in Z3. rewrite HN, Z3. rewrite !zlen_app, zlen_take by lia. pose proof (zlen_nonneg _ h). pose proof (zlen_nonneg _ (d_rest s')). lia.
Qed.
Lemma process_2 : forall nn msg w, N = zlen msg -> K = cs_ecc (the_suite (w_ctx w)) -> 0 <= K -> wf_bytes msg -> reaches K msg -> fine_at (message_2_process nn msg) w.
Proof.
  intros nn msg w HN HK P W R. unfold message_2_process. destruct (_ || _); [apply at_fine, ret_o|]. apply at_getc.
  destruct (negb _); [apply at_fine, ret_o|]. apply at_enter. intros c S.
  unfold comp_ciphertext_2_len. destruct (dec_message_2 msg) as [z|] eqn:D.
  2:{ apply at_fine, fine_retb. change (E_CBOR =? OK) with false. apply ret_o. }
  pose proof (len_2 _ _ HN P W R D) as L.
  apply at_assoc, at_suite. cbn [w_ctx]. rewrite S, <- HK. apply at_fine. o_auto.
Qed.
Lemma bstr_fit : forall msg ct, N = zlen msg -> 0 <= K -> wf_bytes msg -> reaches K msg -> dec_one_bstr cf_canon msg = Some ct ->
  0 <= size_sub (zlen ct) K /\ size_sub (zlen ct) K + K <= N.
Proof.
  intros msg ct HN P W R D. pose proof (R _ (dec_carries _ _ W D)) as L. apply mod_fit; try lia; auto.
  rewrite HN. clear HN L R P. unfold dec_one_bstr in D. destruct (dec_bstr _ _) as [[x s']|] eqn:Q; [|discriminate]. inversion D; subst x.
  destruct (bstr_sound _ _ _ _ Q W) as (h & A & B & _). change (msg = h ++ d_rest s') in A. inversion B; subst.
  rewrite !zlen_app. match goal with |- _ <= zlen ?a + _ + _ => pose proof (zlen_nonneg _ a) end. pose proof (zlen_nonneg _ (d_rest s')). lia.
Qed.
Lemma process_3 : forall nn msg w, N = zlen msg -> K = cs_tag (the_suite (w_ctx w)) -> 0 <= K -> wf_bytes msg -> reaches K msg -> fine_at (message_3_process nn msg) w.
Proof.
  intros nn msg w HN HK P W R. unfold message_3_process. destruct (_ || _); [apply at_fine, ret_o|]. apply at_getc.
  destruct (negb _); [apply at_fine, ret_o|]. apply at_enter. intros c S. apply at_suite. cbn [w_ctx]. rewrite S.
  destruct (dec_one_bstr cf_canon msg) as [ct|] eqn:D; [|apply at_fine, ret_o].
  pose proof (bstr_fit _ _ HN P W R D) as L. rewrite HK in L at 1 2. apply at_fine. o_auto.
Qed.
Lemma process_4 : forall nn msg w, N = zlen msg -> K = cs_tag (the_suite (w_ctx w)) -> 0 <= K -> wf_bytes msg -> reaches K msg -> fine_at (message_4_process nn msg) w.
Proof.
  intros nn msg w HN HK P W R. unfold message_4_process. destruct (_ || _); [apply at_fine, ret_o|]. apply at_getc.
  destruct (negb _); [apply at_fine, ret_o|]. apply at_enter. intros c S. apply at_suite. cbn [w_ctx]. rewrite S.
  destruct (dec_one_bstr cf_canon msg) as [ct|] eqn:D; [|apply at_fine, ret_o].
  pose proof (bstr_fit _ _ HN P W R D) as L. rewrite HK in L at 1 2. apply at_fine. o_auto.
Qed.

(** ** Until the application is asked about the credentials *)
Variables (S : csuite) (T R : Z).
Hypotheses (P0 : 0 <= cs_key S) (P1 : 0 <= cs_iv S) (P2 : 0 <= cs_ecc S) (P3 : 0 <= cs_hash S) (P4 : 0 <= T) (HT : cs_hash S <= T)
  (HN : N <= R) (HK : 0 <= K) (HR : 64 + T + cs_key S + cs_iv S + cs_ecc S + cs_hash S <= R).
Definition inv (c : ctx) : Prop := the_suite c = S /\ c_th_len c <= T.
Definition tight (ev : event) : Prop := match ev with EvAlloc _ n _ => n <= R | _ => True end.
Definition pre {A} (m : M A) : Prop := forall w a w', inv (w_ctx w) -> m w = Ret a w' ->
  inv (w_ctx w') /\ exists e, w_tr w' = e ++ w_tr w /\ Forall tight e.
Lemma pre_bind : forall A B (m : M A) (k : A -> M B), pre m -> (forall a, pre (k a)) -> pre (bind m k).
Proof.
  intros A B m k H1 H2 w b w' I0 X. apply bind_inv in X as (a & w1 & X1 & X2). destruct (H1 _ _ _ I0 X1) as (I1 & e1 & Y1 & Z1).
  destruct (H2 _ _ _ _ I1 X2) as (I2 & e2 & Y2 & Z2). split; [exact I2|]. exists (e2 ++ e1). rewrite Y2, Y1. split; [apply app_assoc|].
  apply Forall_app. now split.
Qed.
Lemma pre_assoc : forall A B C (m : M A) (k : A -> M B) (h : B -> M C), pre (bind m (fun a => bind (k a) h)) -> pre (bind (bind m k) h).
Proof. intros A B C m k h H w c w' I0 X. apply (H w c w' I0). unfold bind in *. destruct (m w); [exact X|discriminate]. Qed.
Lemma pre_retb : forall A B (a : A) (k : A -> M B), pre (k a) -> pre (bind (ret a) k). Proof. intros A B a k H. exact H. Qed.
Lemma pre_getc : forall A (k : ctx -> M A), (forall c, inv c -> pre (k c)) -> pre (bind getc k).
Proof. intros A k H w a w' I0 X. exact (H _ I0 w a w' I0 X). Qed.
Lemma pre_suite : forall A (k : csuite -> M A), pre (k S) -> pre (bind get_suite k).
Proof. intros A k H w a w' I0 X. apply bind_inv in X as (s & w1 & X1 & X2). apply suite_run in X1 as [-> ->]. rewrite (proj1 I0) in X2. exact (H _ _ _ I0 X2). Qed.
Lemma pre_same : forall A (m : M A), (forall w a w', m w = Ret a w' -> w' = w) -> pre m.
Proof. intros A m H w a w' I0 X. rewrite (H _ _ _ X). split; [exact I0|]. exists []. split; [reflexivity|constructor]. Qed.
Lemma ret_p : forall A (a : A), pre (ret a). Proof. intros. apply pre_same. intros ? ? ? X. now inversion X. Qed.
Lemma fault_p : forall A u, pre (@fault A u). Proof. intros. apply pre_same. intros ? ? ? X. discriminate. Qed.
Lemma trace_p : pre trace. Proof. intros. apply pre_same. intros ? ? ? X. now inversion X. Qed.
Lemma check_p : forall b u, pre (check b u). Proof. intros. apply pre_same. intros ? ? ? X. apply check_inv in X. now destruct X as [_ ->]. Qed.
Lemma need_p : forall A (o : option A) u, pre (need o u). Proof. intros. apply pre_same. intros ? ? ? X. apply need_inv in X. now destruct X as [_ ->]. Qed.
Lemma modify_p : forall f, (forall c, inv c -> inv (f c)) -> pre (modify f).
Proof. intros f F w a w' I0 X. inversion X; subst. split; [exact (F _ I0)|]. exists []. split; [reflexivity|constructor]. Qed.
Lemma emit_p : forall ev, tight ev -> pre (emit ev).
Proof. intros ev H w a w' I0 X. inversion X; subst. split; [exact I0|]. exists [ev]. split; [reflexivity|]. constructor; [exact H|constructor]. Qed.
Lemma alloc_p : forall b n, n <= R -> pre (alloc b n).
Proof.
  intros b n H. unfold alloc. destruct cf_stack.
  - apply pre_bind; [apply check_p|intros _]. apply pre_bind; [apply emit_p; exact H|intros _]. apply ret_p.
  - apply pre_bind; [apply trace_p|intro]. cbv zeta. apply pre_bind; [apply emit_p; exact H|intros _]. apply ret_p.
Qed.
Lemma imr_le : forall v, 1 <= int_mem_req v <= 4. Proof. intro v. unfold int_mem_req. repeat destruct (_ && _); lia. Qed.
Lemma boh_le : forall v, 1 <= bstr_oh v <= 5. Proof. intro v. unfold bstr_oh. repeat destruct (_ <=? _); lia. Qed.
Ltac p_num := unfold info_th_len, aad_len_of; change (tstr_oh 9) with 1;
  repeat match goal with
  | |- context [int_mem_req ?v] => generalize (imr_le v); generalize (int_mem_req v); intros ? ?
  | |- context [bstr_oh ?v] => generalize (boh_le v); generalize (bstr_oh v); intros ? ?
  end; unfold inv in *; lia.
Ltac p_mod := apply modify_p; let c := fresh in let A := fresh in let B := fresh in intros c [A B]; split; [exact A|first [exact B|exact HT]].
Create HintDb pre discriminated.
#[local] Hint Constants Opaque : pre.
#[local] Hint Transparent bytes M : pre.
#[local] Hint Resolve ret_p fault_p trace_p check_p need_p : pre.
Ltac p_step :=
  cbn [fst snd];
  lazymatch goal with
  | |- pre (bind (ret _) _) => apply pre_retb
  | |- pre (bind getc _) => apply pre_getc; intros
  | |- pre (bind get_suite _) => apply pre_suite
  | |- pre (bind (bind _ _) _) => apply pre_assoc
  | |- pre (bind (if ?b then _ else _) _) => destruct b
  | |- pre (bind (match ?x with _ => _ end) _) => destruct x
  | |- pre (bind (let _ := _ in _) _) => cbv zeta
  | |- pre (bind (alloc _ _) _) => apply pre_bind; [apply alloc_p; p_num|intro]
  | |- pre (bind (emit _) _) => apply pre_bind; [apply emit_p; exact I|intro]
  | |- pre (bind (modify _) _) => apply pre_bind; [p_mod|intro]
  | |- pre (bind _ _) => apply pre_bind; [solve [eauto 4 with pre nocore]|intro]
  | |- pre (ret _) => apply ret_p
  | |- pre (fault _) => apply fault_p
  | |- pre (emit _) => apply emit_p; exact I
  | |- pre (modify _) => p_mod
  | |- pre (fail _ _) => unfold fail
  | |- pre (failp _ _) => unfold failp
  | |- pre (if ?b then _ else _) => destruct b
  | |- pre (match ?x with _ => _ end) => destruct x
  | |- pre (let _ := _ in _) => cbv zeta
  | |- pre ((fun _ => _) _) => cbv beta
  | |- pre _ => solve [eauto 4 with pre nocore]
  end.
Ltac p_auto := repeat p_step.
Lemma import_p : forall a b, pre (call_import a b).
Proof. intros. unfold call_import. p_auto. Qed.
#[local] Hint Resolve import_p : pre.
Lemma destroy_p : forall a, pre (call_destroy a).
Proof. intros. unfold call_destroy. p_auto. Qed.
#[local] Hint Resolve destroy_p : pre.
Lemma agree_p : forall a b c, pre (call_agree a b c).
Proof. intros. unfold call_agree, out_ok. p_auto. Qed.
#[local] Hint Resolve agree_p : pre.
Lemma extract_p : forall a b c, pre (call_extract a b c).
Proof. intros. unfold call_extract, out_ok. p_auto. Qed.
#[local] Hint Resolve extract_p : pre.
Lemma expand_p : forall a b c, pre (call_expand a b c).
Proof. intros. unfold call_expand, out_ok. p_auto. Qed.
#[local] Hint Resolve expand_p : pre.
Lemma decrypt_p : forall a b c d f, pre (call_decrypt a b c d f).
Proof. intros. unfold call_decrypt, out_ok. p_auto. Qed.
#[local] Hint Resolve decrypt_p : pre.
Lemma hash_p : forall a b, pre (call_hash a b).
Proof. intros. unfold call_hash, out_ok. p_auto. Qed.
#[local] Hint Resolve hash_p : pre.
Lemma cprocess_p : forall a b c, pre (call_process a b c).
Proof. intros. unfold call_process. p_auto. Qed.
#[local] Hint Resolve cprocess_p : pre.
Lemma free_p : forall a, pre (free a).
Proof. intros. unfold free. p_auto. Qed.
#[local] Hint Resolve free_p : pre.
Lemma rd_p : forall a b c, pre (rd a b c).
Proof. intros. unfold rd. p_auto. Qed.
#[local] Hint Resolve rd_p : pre.
Lemma rd_ptr_p : forall a b, pre (rd_ptr a b).
Proof. intros. unfold rd_ptr. p_auto. Qed.
#[local] Hint Resolve rd_ptr_p : pre.
Lemma rd_tok_p : forall a b, pre (rd_tok a b).
Proof. intros. unfold rd_tok. p_auto. Qed.
#[local] Hint Resolve rd_tok_p : pre.
Lemma get_th_p : pre (get_th).
Proof. intros. unfold get_th. p_auto. Qed.
#[local] Hint Resolve get_th_p : pre.
Lemma get_prk_p : pre (get_prk).
Proof. intros. unfold get_prk. p_auto. Qed.
#[local] Hint Resolve get_prk_p : pre.
Lemma get_dh_pub_p : pre (get_dh_pub).
Proof. intros. unfold get_dh_pub. p_auto. Qed.
#[local] Hint Resolve get_dh_pub_p : pre.
Lemma get_dh_priv_p : pre (get_dh_priv).
Proof. intros. unfold get_dh_priv. p_auto. Qed.
#[local] Hint Resolve get_dh_priv_p : pre.
Lemma get_dh_peer_p : pre (get_dh_peer).
Proof. intros. unfold get_dh_peer. p_auto. Qed.
#[local] Hint Resolve get_dh_peer_p : pre.
Lemma get_dh_secret_p : pre (get_dh_secret).
Proof. intros. unfold get_dh_secret. p_auto. Qed.
#[local] Hint Resolve get_dh_secret_p : pre.
Lemma put_th_p : forall a, pre (put_th a).
Proof. intros. unfold put_th, wr. p_auto. Qed.
#[local] Hint Resolve put_th_p : pre.
Lemma put_prk_p : forall a, pre (put_prk a).
Proof. intros. unfold put_prk, wr. p_auto. Qed.
#[local] Hint Resolve put_prk_p : pre.
Lemma put_dh_pub_p : forall a, pre (put_dh_pub a).
Proof. intros. unfold put_dh_pub, wr. p_auto. Qed.
#[local] Hint Resolve put_dh_pub_p : pre.
Lemma put_dh_priv_p : forall a, pre (put_dh_priv a).
Proof. intros. unfold put_dh_priv, wr. p_auto. Qed.
#[local] Hint Resolve put_dh_priv_p : pre.
Lemma put_dh_peer_p : forall a, pre (put_dh_peer a).
Proof. intros. unfold put_dh_peer, wr. p_auto. Qed.
#[local] Hint Resolve put_dh_peer_p : pre.
Lemma put_dh_secret_p : forall a, pre (put_dh_secret a).
Proof. intros. unfold put_dh_secret, wr. p_auto. Qed.
#[local] Hint Resolve put_dh_secret_p : pre.
Lemma frees_p : forall l, pre (frees l).
Proof. induction l; cbn [frees]; p_auto. Qed.
#[local] Hint Resolve frees_p : pre.
Lemma hash_into_th_p : forall i, pre (hash_into_th (cs_hash S) i).
Proof. intros. unfold hash_into_th. p_auto. Qed.
#[local] Hint Resolve hash_into_th_p : pre.
Lemma kdf_p : forall x len l cx k n, len <= R -> pre cx -> pre k -> pre (kdf x len l cx k n).
Proof. intros. unfold kdf. p_auto. Qed.
Lemma comp_dh_secret_p : pre (comp_dh_secret).
Proof. intros. unfold comp_dh_secret. p_auto. Qed.
#[local] Hint Resolve comp_dh_secret_p : pre.
Lemma comp_th_2_p : pre (comp_th_2).
Proof. intros. unfold comp_th_2. p_auto. Qed.
#[local] Hint Resolve comp_th_2_p : pre.
Lemma comp_prk_2e_p : pre (comp_prk_2e).
Proof. intros. unfold comp_prk_2e. p_auto. Qed.
#[local] Hint Resolve comp_prk_2e_p : pre.
Lemma parse_msg_2_p : forall m n, pre (parse_msg_2 m n).
Proof. intros. unfold parse_msg_2. p_auto. Qed.
#[local] Hint Resolve parse_msg_2_p : pre.
Lemma parse_id_cred_p : forall b i, pre (parse_id_cred b i).
Proof. intros. unfold parse_id_cred. p_auto. Qed.
#[local] Hint Resolve parse_id_cred_p : pre.
Lemma store_tokens_p : forall l, pre (store_tokens l).
Proof. intros. unfold store_tokens. p_auto. Qed.
#[local] Hint Resolve store_tokens_p : pre.
Lemma store_peer_cid_p : forall l, pre (store_peer_cid l).
Proof. intros. unfold store_peer_cid. p_auto. Qed.
#[local] Hint Resolve store_peer_cid_p : pre.
Lemma parse_plaintext_2_p : forall p, pre (parse_plaintext_2 p).
Proof. intros. unfold parse_plaintext_2. p_auto. Qed.
#[local] Hint Resolve parse_plaintext_2_p : pre.
Lemma ead_process_p : pre (ead_process).
Proof. intros. unfold ead_process. p_auto. Qed.
#[local] Hint Resolve ead_process_p : pre.
Lemma expand_part_p : forall a b n, pre (expand_part a b n).
Proof. intros. unfold expand_part. p_auto. Qed.
#[local] Hint Resolve expand_part_p : pre.
Lemma key_iv_aad_p : forall a b n, pre (key_iv_aad a b n).
Proof. intros. unfold key_iv_aad. p_auto. Qed.
#[local] Hint Resolve key_iv_aad_p : pre.
Lemma comp_key_iv_aad_3_p : forall a b n, pre (comp_key_iv_aad_3 a b n).
Proof. intros. unfold comp_key_iv_aad_3. p_auto. Qed.
#[local] Hint Resolve comp_key_iv_aad_3_p : pre.
Lemma compute_key_iv_aad_4_p : forall a b n, pre (compute_key_iv_aad_4 a b n).
Proof. intros. unfold compute_key_iv_aad_4. p_auto. Qed.
#[local] Hint Resolve compute_key_iv_aad_4_p : pre.
Lemma aead_decrypt_p : forall a b c d n, pre (aead_decrypt a b c d n).
Proof. intros. unfold aead_decrypt. p_auto. Qed.
#[local] Hint Resolve aead_decrypt_p : pre.
Lemma decrypt_ciphertext_3_p : forall a b c d n, pre (decrypt_ciphertext_3 a b c d n).
Proof. intros. unfold decrypt_ciphertext_3. p_auto. Qed.
#[local] Hint Resolve decrypt_ciphertext_3_p : pre.
Lemma parse_plaintext_3_p : forall p, pre (parse_plaintext_3 p).
Proof. intros. unfold parse_plaintext_3. p_auto. Qed.
#[local] Hint Resolve parse_plaintext_3_p : pre.
Lemma comp_keystream_p : forall a n, pre (comp_keystream a n).
Proof. intros. unfold comp_keystream. p_auto. apply kdf_p; [p_num|eauto with pre nocore|eauto with pre nocore]. Qed.
#[local] Hint Resolve comp_keystream_p : pre.

Definition calm (e : list event) : Prop := forall later b n ok before, e = later ++ EvAlloc b n ok :: before -> unasked before -> n <= R.
Definition until {A} (m : M A) : Prop := forall w a w', inv (w_ctx w) -> m w = Ret a w' -> exists e, w_tr w' = e ++ w_tr w /\ calm e.
Lemma calm_app : forall e2 e1, calm e2 -> Forall tight e1 -> calm (e2 ++ e1).
Proof.
  intros e2 e1 C F later b n ok before H U. apply app_eq_app in H as (l & [[A B]|[A B]]).
  - destruct l as [|x l].
    + rewrite Forall_forall in F. apply (F (EvAlloc b n ok)). cbn in B. rewrite <- B. now left.
    + cbn in B. injection B as <- B. apply (C later b n ok l); [exact A|]. intros y Y. apply U. rewrite B. apply in_or_app. now left.
  - rewrite Forall_forall in F. apply (F (EvAlloc b n ok)). rewrite B. apply in_or_app. right. now left.
Qed.
Lemma until_bind : forall A B (m : M A) (k : A -> M B), pre m -> (forall a, until (k a)) -> until (bind m k).
Proof.
  intros A B m k H1 H2 w b w' I0 X. apply bind_inv in X as (a & w1 & X1 & X2). destruct (H1 _ _ _ I0 X1) as (I1 & e1 & Y1 & Z1).
  destruct (H2 _ _ _ _ I1 X2) as (e2 & Y2 & Z2). exists (e2 ++ e1). rewrite Y2, Y1. split; [apply app_assoc|now apply calm_app].
Qed.
Lemma until_pre : forall A (m : M A), pre m -> until m.
Proof.
  intros A m H w a w' I0 X. destruct (H _ _ _ I0 X) as (_ & e & Y & Z). exists e. split; [exact Y|]. apply (calm_app [] e); [|exact Z].
  intros l b n ok f Q. destruct l; discriminate.
Qed.
Lemma until_assoc : forall A B C (m : M A) (k : A -> M B) (h : B -> M C), until (bind m (fun a => bind (k a) h)) -> until (bind (bind m k) h).
Proof. intros A B C m k h H w c w' I0 X. apply (H w c w' I0). unfold bind in *. destruct (m w); [exact X|discriminate]. Qed.
Lemma until_getc : forall A (k : ctx -> M A), (forall c, inv c -> until (k c)) -> until (bind getc k).
Proof. intros A k H w a w' I0 X. exact (H _ I0 w a w' I0 X). Qed.
Lemma until_suite : forall A (k : csuite -> M A), until (k S) -> until (bind get_suite k).
Proof. intros A k H w a w' I0 X. apply bind_inv in X as (s & w1 & X1 & X2). apply suite_run in X1 as [-> ->]. rewrite (proj1 I0) in X2. exact (H _ _ _ I0 X2). Qed.
Lemma until_retb : forall A B (a : A) (k : A -> M B), until (k a) -> until (bind (ret a) k). Proof. intros A B a k H. exact H. Qed.
(** From the question on, anything may be asked for. *)
Lemma until_asked : forall A cr (k : Z * creds * bytes -> M A), (forall a, fine (k a)) -> until (bind (call_cverify cr) k).
Proof.
  intros A cr k H w a w' I0 X. apply bind_inv in X as (v & w1 & X1 & X2). destruct (H _ _ _ _ X2) as (e & Y & _).
  assert (Q : exists ev, w_tr w1 = ev :: w_tr w /\ ~ unasked [ev]).
  { unfold call_cverify in X1. apply bind_inv in X1 as (c & w2 & X3 & X1). inversion X3; subst; clear X3.
    apply bind_inv in X1 as (f & w3 & X3 & X1). apply need_inv in X3 as [_ ->].
    apply bind_inv in X1 as (t & w4 & X3 & X1). inversion X3; subst; clear X3.
    destruct (o_cverify _ _ _) as [[r c'] pub] in X1. apply bind_inv in X1 as (u & w5 & X3 & X1). inversion X3; subst; clear X3. inversion X1; subst.
    eexists. split; [reflexivity|]. intro U. exact (U _ (or_introl eq_refl)). }
  destruct Q as (ev & Q & NU). exists (e ++ [ev]). split; [rewrite Y, Q, <- app_assoc; reflexivity|].
  intros later b n ok before G U. exfalso. apply NU. intros y [<-|[]]. apply U.
  destruct before as [|z before] using rev_ind.
  - apply app_inj_tail in G as [_ ->]. exfalso. apply NU. intros y [<-|[]]. exact I.
  - rewrite app_comm_cons, app_assoc in G. apply app_inj_tail in G as [_ ->]. apply in_or_app. right. now left.
Qed.
Ltac u_step :=
  cbn [fst snd];
  lazymatch goal with
  | |- until (bind (ret _) _) => apply until_retb
  | |- until (bind getc _) => apply until_getc; intros
  | |- until (bind get_suite _) => apply until_suite
  | |- until (bind (bind _ _) _) => apply until_assoc
  | |- until (bind (call_cverify _) _) => apply until_asked; intro; o_auto
  | |- until (bind (if ?b then _ else _) _) => destruct b
  | |- until (bind (match ?x with _ => _ end) _) => destruct x eqn:?
  | |- until (bind (let _ := _ in _) _) => cbv zeta
  | |- until (bind (alloc _ _) _) => apply until_bind; [apply alloc_p; p_num|intro]
  | |- until (bind (enter _ _) _) => unfold enter
  | |- until (bind (modify _) _) => apply until_bind; [p_mod|intro]
  | |- until (bind _ _) => apply until_bind; [solve [eauto 4 with pre nocore]|intro]
  | |- until (if ?b then _ else _) => destruct b
  | |- until (match ?x with _ => _ end) => destruct x eqn:?
  | |- until (let _ := _ in _) => cbv zeta
  | |- until _ => apply until_pre; p_auto
  end.
Ltac u_auto := repeat u_step.
Lemma until_2 : forall nn msg, N = zlen msg -> K = cs_ecc S -> wf_bytes msg -> reaches K msg -> until (message_2_process nn msg).
Proof.
  intros nn msg E1 E2 W HH. unfold message_2_process, comp_ciphertext_2_len. destruct (_ || _); [apply until_pre, ret_p|]. apply until_getc. intros c C.
  destruct (negb _); [apply until_pre, ret_p|]. unfold enter. apply until_bind; [p_mod|intro].
  destruct (dec_message_2 msg) as [z|] eqn:D; [|apply until_retb; change (E_CBOR =? OK) with false; apply until_pre, ret_p].
  pose proof (len_2 _ _ E1 HK W HH D) as L. apply until_assoc, until_suite. rewrite <- E2. u_auto.
Qed.
Lemma until_3 : forall nn msg, N = zlen msg -> K = cs_tag S -> wf_bytes msg -> reaches K msg -> until (message_3_process nn msg).
Proof.
  intros nn msg E1 E2 W HH. unfold message_3_process. destruct (_ || _); [apply until_pre, ret_p|]. apply until_getc. intros c C.
  destruct (negb _); [apply until_pre, ret_p|]. unfold enter. apply until_bind; [p_mod|intro]. apply until_suite.
  destruct (dec_one_bstr cf_canon msg) as [ct|] eqn:D; [|apply until_pre, ret_p].
  pose proof (bstr_fit _ _ E1 HK W HH D) as L. rewrite <- E2. u_auto.
Qed.
Lemma until_4 : forall nn msg, N = zlen msg -> K = cs_tag S -> wf_bytes msg -> reaches K msg -> until (message_4_process nn msg).
Proof.
  intros nn msg E1 E2 W HH. unfold message_4_process. destruct (_ || _); [apply until_pre, ret_p|]. apply until_getc. intros c C.
  destruct (negb _); [apply until_pre, ret_p|]. unfold enter. apply until_bind; [p_mod|intro]. apply until_suite.
  destruct (dec_one_bstr cf_canon msg) as [ct|] eqn:D; [|apply until_pre, ret_p].
  pose proof (bstr_fit _ _ E1 HK W HH D) as L. rewrite <- E2. u_auto.
Qed.
End Burden.
Lemma received_fits : forall (E : env) a w r w' msg k, received a (the_suite (w_ctx w)) = Some (msg, k) -> 0 <= k -> wf_bytes msg -> reaches k msg ->
  do_api a w = Ret r w' -> exists e, w_tr w' = e ++ w_tr w /\
  forall b n ok, In (EvAlloc b n ok) e -> takes_received b = true -> 0 <= n /\ n + k <= zlen msg.
Proof.
  intros E a w r w' msg k V P W R H.
  assert (Q : fine_at (zlen msg) k (do_api a) w).
  { destruct a; try discriminate V; injection V as <- <-; cbn [do_api]; unfold no_out; intros x y G; apply bind_inv in G as (v & w1 & G1 & G2);
      inversion G2; subst.
    - exact (process_2 _ _ _ _ _ eq_refl eq_refl P W R _ _ G1).
    - exact (process_3 _ _ _ _ _ eq_refl eq_refl P W R _ _ G1).
    - exact (process_4 _ _ _ _ _ eq_refl eq_refl P W R _ _ G1). }
  destruct (Q _ _ H) as (e & T & F). exists e. split; [exact T|]. intros b n ok I HB. rewrite Forall_forall in F. exact (F _ I HB).
Qed.
Lemma app_inj : forall (a b c d : bytes), length a = length b -> a ++ c = b ++ d -> a = b /\ c = d.
Proof. induction a as [|x a IH]; intros [|y b] c d L H; try discriminate; [now split|]. injection H as -> H. injection L as L. destruct (IH _ _ _ L H). subst. now split. Qed.
Lemma head_one : forall m n n' h h' r r', is_head m n h -> is_head m n' h' -> h ++ r = h' ++ r' -> n = n'.
Proof.
  intros m n n' h h' r r' (a & x & -> & A) (a' & x' & -> & A') H. injection H as H1 H2. assert (a = a') by lia. subst a'.
  destruct A as [(-> & -> & ?)|(k & ? & ? & L & V)]; destruct A' as [(-> & ? & ?)|(k' & ? & ? & L' & V')]; try lia.
  assert (k = k') by lia. subst k'. assert (length x = length x') by (unfold zlen in *; lia).
  apply (app_inj _ _ _ _) in H2; [|assumption]. destruct H2 as [-> _]. congruence.
Qed.
Lemma reaches_of : forall n msg b, carries msg [Bstr b] -> n <= zlen b -> reaches n msg.
Proof.
  intros n msg b (w & r & -> & W) L b' (w' & r' & Q & W'). inversion W as [|? ? x y X Y]; subst. inversion W' as [|? ? x' y' X' Y']; subst.
  inversion X as [|? h Hh| | |]; subst. inversion X' as [|? h' Hh'| | |]; subst. rewrite <- !app_assoc in Q.
  now rewrite <- (head_one _ _ _ _ _ _ _ Hh Hh' Q).
Qed.
Lemma until_fits : forall (E : env) a w r w' msg k, received a (the_suite (w_ctx w)) = Some (msg, k) -> sized (w_ctx w) -> 0 <= k -> wf_bytes msg -> reaches k msg ->
  do_api a w = Ret r w' -> exists e, w_tr w' = e ++ w_tr w /\
  forall later b n ok before, e = later ++ EvAlloc b n ok :: before -> unasked before -> n <= Z.max (zlen msg) (own_room (w_ctx w)).
Proof.
  intros E a w r w' msg k V (S1 & S2 & S3 & S4 & S5) P W Q H.
  set (S := the_suite (w_ctx w)) in *. set (T := c_th_len (w_ctx w) + cs_hash S). set (R := Z.max (zlen msg) (own_room (w_ctx w))).
  assert (J : inv S T (w_ctx w)) by (split; [reflexivity|unfold T; lia]).
  assert (HT : cs_hash S <= T) by (unfold T; lia).
  assert (HR : 64 + T + cs_key S + cs_iv S + cs_ecc S + cs_hash S <= R) by (unfold R, own_room, T; fold S; lia).
  assert (HN : zlen msg <= R) by (unfold R; lia).
  destruct a; try discriminate V; injection V as <- <-; cbn [do_api] in H; unfold no_out in H; apply bind_inv in H as (v & w1 & G1 & G2); inversion G2; subst.
  - exact (until_2 _ _ _ _ _ S2 S3 S4 S5 HT HN P HR _ _ eq_refl eq_refl W Q _ _ _ J G1).
  - exact (until_3 _ _ _ _ _ S2 S3 S4 S5 HT HN P HR _ _ eq_refl eq_refl W Q _ _ _ J G1).
  - exact (until_4 _ _ _ _ _ S2 S3 S4 S5 HT HN P HR _ _ eq_refl eq_refl W Q _ _ _ J G1).
Qed.
Lemma claimed_count : forall R e, 0 <= R -> (forall b n ok, In (EvAlloc b n ok) e -> n <= R) -> claimed e <= Z.of_nat (amount WBlock e) * R.
Proof.
  intros R e P. induction e as [|x e IH]; intro H; [cbn; lia|].
  assert (G : claimed e <= Z.of_nat (amount WBlock e) * R) by (apply IH; intros b n ok I; exact (H b n ok (or_intror I))).
  unfold claimed in *. cbn [fold_right]. unfold amount in *. cbn [filter].
  destruct x; cbn [is_work]; try exact G. cbn [length]. rewrite Nat2Z.inj_succ, Z.mul_succ_l. pose proof (H _ _ _ (or_introl eq_refl)). lia.
Qed.
Lemma unasked_tail : forall l e, unasked (l ++ e) -> unasked e.
Proof. intros l e H x I. apply H, in_or_app. now right. Qed.
Lemma total_fits : forall (E : env) a w r w' msg k, received a (the_suite (w_ctx w)) = Some (msg, k) -> sized (w_ctx w) -> 0 <= k -> wf_bytes msg -> reaches k msg ->
  do_api a w = Ret r w' -> exists e, w_tr w' = e ++ w_tr w /\
  forall later before, e = later ++ before -> unasked before -> claimed before <= requests a * Z.max (zlen msg) (own_room (w_ctx w)).
Proof.
  intros E a w r w' msg k V S P W Q H. destruct (until_fits E a w r w' msg k V S P W Q H) as (e & X & Y).
  destruct (early_bound _ _ _ _ _ H) as (e' & X' & Y'). assert (e' = e) by (rewrite X in X'; now apply app_inv_tail in X'). subst e'.
  exists e. split; [exact X|]. intros later before -> U. set (R := Z.max (zlen msg) (own_room (w_ctx w))) in *.
  assert (R0 : 0 <= R) by (unfold R; pose proof (zlen_nonneg _ msg); lia).
  eapply Z.le_trans; [apply (claimed_count R before R0)|].
  - intros b n ok I. apply in_split in I as (l1 & l2 & ->). apply (Y (later ++ l1) b n ok l2); [now rewrite <- app_assoc|].
    apply (unasked_tail (l1 ++ [EvAlloc b n ok])). now rewrite <- app_assoc.
  - apply Z.mul_le_mono_nonneg_r; [exact R0|]. pose proof (Y' later before eq_refl U WBlock) as L.
    destruct a; try discriminate V; cbn [requests]; cbv [early_limits limits look find work_eqb fst snd] in L; lia.
Qed.
Lemma first_none : forall (E : env) p m w r w', do_api (AM1Process p m) w = Ret r w' -> exists e, w_tr w' = e ++ w_tr w /\ forall b n ok, ~ In (EvAlloc b n ok) e.
Proof.
  intros E p m w r w' H. destruct (call_bound _ _ _ _ H) as (e & X & Y). exists e. split; [exact X|]. intros b n ok I.
  specialize (Y WBlock).
  apply in_split in I as (l1 & l2 & ->). unfold amount in Y. rewrite filter_app, app_length in Y. cbn in Y. lia.
Qed.
