(** Which labels a call derives keys under, and how often.  No code of /repo is modelled here. *)
From Verif Require Import Monad Cbor CborGen Common Msg1 Msg2 Msg3 Msg4 Exporter History Spec Rfc Attempts Logic Frame CborProofs RfcProofs Steps.

Definition told (e : event) : bool := match e with EvExpand _ (x :: y :: _) _ _ _ => (0 <=? x) && (x <=? 9) && negb (y =? 64) | _ => false end.
Definition wf (e : event) : Prop := match e with EvExpand _ i _ _ _ => exists l c n, 0 <= l <= 65535 /\ 0 <= n < 2 ^ 32 /\ i = info l c n | _ => True end.
Definition mute {A} (m : M A) : Prop :=
  forall w, match m w with
            | Ret _ w' => c_message (w_ctx w') = c_message (w_ctx w) /\ exists e, w_tr w' = e ++ w_tr w /\ filter told e = [] /\ Forall wf e
            | Ub _ => True end.

Create HintDb lm discriminated.
#[export] Hint Constants Opaque : lm.
#[export] Hint Transparent bytes M : lm.
Lemma bind_m : forall A B (m : M A) (k : A -> M B), mute m -> (forall a, mute (k a)) -> mute (bind m k).
Proof.
  intros A B m k H1 H2 w. specialize (H1 w). unfold bind. destruct (m w) as [a w1|]; [|exact I].
  destruct H1 as (K1 & e1 & T1 & F1 & W1). specialize (H2 a w1). destruct (k a w1) as [b w2|]; [|exact I].
  destruct H2 as (K2 & e2 & T2 & F2 & W2). split; [congruence|]. exists (e2 ++ e1). rewrite T2, T1, filter_app, F1, F2. split; [apply app_assoc|]. split; [reflexivity|]. apply Forall_app. now split.
Qed.
Lemma ret_m : forall A (a : A), mute (ret a). Proof. intros A a w. split; [reflexivity|]. exists []; split; [reflexivity|]; now split. Qed.
Lemma getc_m : mute getc. Proof. intro w. split; [reflexivity|]. exists []; split; [reflexivity|]; now split. Qed.
Lemma trace_m : mute trace. Proof. intro w. split; [reflexivity|]. exists []; split; [reflexivity|]; now split. Qed.
Lemma modify_m : forall f, (forall c, c_message (f c) = c_message c) -> mute (modify f). Proof. intros f H w. split; [apply H|]. exists []; split; [reflexivity|]; now split. Qed.
Lemma fault_m : forall A u, mute (@fault A u). Proof. intros A u w. exact I. Qed.
Lemma check_m : forall b u, mute (check b u). Proof. intros [] u w; [split; [reflexivity|]; exists []; split; [reflexivity|]; now split|exact I]. Qed.
Lemma need_m : forall A (o : option A) u, mute (need o u). Proof. intros A [a|] u w; [split; [reflexivity|]; exists []; split; [reflexivity|]; now split|exact I]. Qed.
Lemma emit_m : forall e, told e = false -> wf e -> mute (emit e).
Proof. intros e H W w. split; [reflexivity|]. exists [e]. split; [reflexivity|]. cbn [filter]. rewrite H. split; [reflexivity|]. constructor; [exact W|constructor]. Qed.
#[export] Hint Resolve ret_m getc_m trace_m fault_m check_m need_m : lm.
#[export] Hint Extern 1 (mute (emit _)) => (apply emit_m; [reflexivity|exact I]) : lm.
#[export] Hint Extern 1 (mute (modify _)) => (apply modify_m; intro; reflexivity) : lm.
Ltac m_step :=
  lazymatch goal with
  | |- mute (bind _ _) => apply bind_m; [|intro]
  | |- mute (if ?b then _ else _) => split_bool b
  | |- mute (match ?x with _ => _ end) => destruct x
  | |- mute (let _ := _ in _) => cbv zeta
  | |- mute ((fun _ => _) _) => cbv beta
  | |- mute _ => solve [auto 2 with lm nocore]
  end.
Ltac m_auto := repeat m_step.

Section Mute.
Context {E : env}.
Lemma alloc_m : forall b n, mute (alloc b n). Proof. intros. unfold alloc. m_auto. Qed.
Lemma free_m : forall b, mute (free b). Proof. intros. unfold free. m_auto. Qed.
Lemma import_m : forall a b, mute (call_import a b). Proof. intros. unfold call_import. m_auto. Qed.
Lemma destroy_m : forall a, mute (call_destroy a). Proof. intros. unfold call_destroy. m_auto. Qed.
Lemma mkpair_m : forall a b c, mute (call_mkpair a b c). Proof. intros. unfold call_mkpair, out_ok. m_auto. Qed.
Lemma agree_m : forall a b c, mute (call_agree a b c). Proof. intros. unfold call_agree, out_ok. m_auto. Qed.
Lemma verify_m : forall a b c, mute (call_verify a b c). Proof. intros. unfold call_verify, out_ok. m_auto. Qed.
Lemma extract_m : forall a b c, mute (call_extract a b c). Proof. intros. unfold call_extract, out_ok. m_auto. Qed.
Lemma decrypt_m : forall a b c d n, mute (call_decrypt a b c d n). Proof. intros. unfold call_decrypt, out_ok. m_auto. Qed.
Lemma hash_m : forall a b, mute (call_hash a b). Proof. intros. unfold call_hash, out_ok. m_auto. Qed.
Lemma sign_m : forall a b c, mute (call_sign a b c). Proof. intros. unfold call_sign, out_ok. m_auto. Qed.
Lemma encrypt_m : forall a b c d n, mute (call_encrypt a b c d n). Proof. intros. unfold call_encrypt, out_ok. m_auto. Qed.
#[local] Hint Resolve sign_m encrypt_m : lm.
Lemma expand_m : forall k i n, told (EvExpand k i n 0 []) = false -> wf (EvExpand k i n 0 []) -> mute (call_expand k i n).
Proof. intros k i n H W. unfold call_expand, out_ok. m_auto; apply emit_m; assumption. Qed.
Lemma fetch_m : mute call_fetch. Proof. intros. unfold call_fetch. m_auto. Qed.
Lemma cverify_m : forall c, mute (call_cverify c). Proof. intros. unfold call_cverify. m_auto. Qed.
Lemma compose_m : forall a b n, mute (call_compose a b n). Proof. intros. unfold call_compose. m_auto. Qed.
Lemma process_m : forall a b n, mute (call_process a b n). Proof. intros. unfold call_process. m_auto. Qed.
#[local] Hint Resolve alloc_m free_m import_m destroy_m mkpair_m agree_m verify_m extract_m decrypt_m hash_m fetch_m cverify_m compose_m process_m : lm.
Lemma ead_compose_m : mute ead_compose. Proof. unfold ead_compose. m_auto. Qed.
Lemma ead_process_m : mute ead_process. Proof. unfold ead_process. m_auto. Qed.
#[local] Hint Resolve ead_compose_m ead_process_m : lm.
Lemma frees_m : forall l, mute (frees l).
Proof. induction l; cbn [frees]; m_auto. Qed.
#[local] Hint Resolve frees_m : lm.
Lemma rd_m : forall a b c, mute (rd a b c).
Proof. intros. unfold rd. m_auto. Qed.
#[local] Hint Resolve rd_m : lm.
Lemma rd_ptr_m : forall a b, mute (rd_ptr a b).
Proof. intros. unfold rd_ptr. m_auto. Qed.
#[local] Hint Resolve rd_ptr_m : lm.
Lemma rd_tok_m : forall a b, mute (rd_tok a b).
Proof. intros. unfold rd_tok. m_auto. Qed.
#[local] Hint Resolve rd_tok_m : lm.
Lemma get_suite_m : mute get_suite.
Proof. intros. unfold get_suite. m_auto. Qed.
#[local] Hint Resolve get_suite_m : lm.
Lemma get_th_m : mute get_th.
Proof. intros. unfold get_th. m_auto. Qed.
#[local] Hint Resolve get_th_m : lm.
Lemma get_prk_m : mute get_prk.
Proof. intros. unfold get_prk. m_auto. Qed.
#[local] Hint Resolve get_prk_m : lm.
Lemma get_dh_pub_m : mute get_dh_pub.
Proof. intros. unfold get_dh_pub. m_auto. Qed.
#[local] Hint Resolve get_dh_pub_m : lm.
Lemma get_dh_priv_m : mute get_dh_priv.
Proof. intros. unfold get_dh_priv. m_auto. Qed.
#[local] Hint Resolve get_dh_priv_m : lm.
Lemma get_dh_peer_m : mute get_dh_peer.
Proof. intros. unfold get_dh_peer. m_auto. Qed.
#[local] Hint Resolve get_dh_peer_m : lm.
Lemma get_dh_secret_m : mute get_dh_secret.
Proof. intros. unfold get_dh_secret. m_auto. Qed.
#[local] Hint Resolve get_dh_secret_m : lm.
Lemma put_th_m : forall x, mute (put_th x).
Proof. intros. unfold put_th, wr. m_auto. Qed.
#[local] Hint Resolve put_th_m : lm.
Lemma put_prk_m : forall x, mute (put_prk x).
Proof. intros. unfold put_prk, wr. m_auto. Qed.
#[local] Hint Resolve put_prk_m : lm.
Lemma put_dh_pub_m : forall x, mute (put_dh_pub x).
Proof. intros. unfold put_dh_pub, wr. m_auto. Qed.
#[local] Hint Resolve put_dh_pub_m : lm.
Lemma put_dh_priv_m : forall x, mute (put_dh_priv x).
Proof. intros. unfold put_dh_priv, wr. m_auto. Qed.
#[local] Hint Resolve put_dh_priv_m : lm.
Lemma put_dh_peer_m : forall x, mute (put_dh_peer x).
Proof. intros. unfold put_dh_peer, wr. m_auto. Qed.
#[local] Hint Resolve put_dh_peer_m : lm.
Lemma put_dh_secret_m : forall x, mute (put_dh_secret x).
Proof. intros. unfold put_dh_secret, wr. m_auto. Qed.
#[local] Hint Resolve put_dh_secret_m : lm.
Lemma comp_id_cred_len_m : forall cr, mute (comp_id_cred_len cr).
Proof. intros. unfold comp_id_cred_len. m_auto. Qed.
#[local] Hint Resolve comp_id_cred_len_m : lm.
Lemma comp_cred_len_m : forall cr, mute (comp_cred_len cr).
Proof. intros. unfold comp_cred_len. m_auto. Qed.
#[local] Hint Resolve comp_cred_len_m : lm.
Lemma read_toks_m : forall p l, mute (read_toks p l).
Proof. induction l; cbn [read_toks]; m_auto. Qed.
#[local] Hint Resolve read_toks_m : lm.
Lemma encode_tokens_m : forall p n l, mute (encode_tokens p n l).
Proof. intros. unfold encode_tokens. m_auto. Qed.
#[local] Hint Resolve encode_tokens_m : lm.
Lemma kid_compact_m : forall cr, mute (kid_compact_encoding cr).
Proof. intros. unfold kid_compact_encoding. m_auto. Qed.
#[local] Hint Resolve kid_compact_m : lm.
Lemma id_cred_of_m : forall cr, mute (id_cred_of cr).
Proof. intros. unfold id_cred_of. m_auto. Qed.
#[local] Hint Resolve id_cred_of_m : lm.
Lemma cred_bytes_m : forall cr n, mute (cred_bytes cr n).
Proof. intros. unfold cred_bytes. m_auto. Qed.
#[local] Hint Resolve cred_bytes_m : lm.
Lemma comp_mac_context_length_m : forall cr, mute (comp_mac_context_length cr).
Proof. intros. unfold comp_mac_context_length. m_auto. Qed.
#[local] Hint Resolve comp_mac_context_length_m : lm.
Lemma comp_mac_context_m : forall cr n, mute (comp_mac_context cr n).
Proof. intros. unfold comp_mac_context. m_auto. Qed.
#[local] Hint Resolve comp_mac_context_m : lm.
Lemma comp_mac_length_m : mute comp_mac_length.
Proof. intros. unfold comp_mac_length. m_auto. Qed.
#[local] Hint Resolve comp_mac_length_m : lm.
Lemma comp_sign_or_mac_length_m : mute comp_sign_or_mac_length.
Proof. intros. unfold comp_sign_or_mac_length. m_auto. Qed.
#[local] Hint Resolve comp_sign_or_mac_length_m : lm.
Lemma verify_cose_sign_1_m : forall m a b c, mute (verify_cose_sign_1 m a b c).
Proof. intros. unfold verify_cose_sign_1. m_auto. Qed.
#[local] Hint Resolve verify_cose_sign_1_m : lm.
Lemma verify_sign_or_mac_m : forall m a b c, mute (verify_sign_or_mac m a b c).
Proof. intros. unfold verify_sign_or_mac. m_auto. Qed.
#[local] Hint Resolve verify_sign_or_mac_m : lm.
Lemma hash_into_th_m : forall n i, mute (hash_into_th n i).
Proof. intros. unfold hash_into_th. m_auto. Qed.
#[local] Hint Resolve hash_into_th_m : lm.
Lemma gen_dh_keys_m : mute gen_dh_keys.
Proof. intros. unfold gen_dh_keys. m_auto. Qed.
#[local] Hint Resolve gen_dh_keys_m : lm.
Lemma comp_dh_secret_m : mute comp_dh_secret.
Proof. intros. unfold comp_dh_secret. m_auto. Qed.
#[local] Hint Resolve comp_dh_secret_m : lm.
Lemma comp_th_2_m : mute comp_th_2.
Proof. intros. unfold comp_th_2. m_auto. Qed.
#[local] Hint Resolve comp_th_2_m : lm.
Lemma comp_prk_2e_m : mute comp_prk_2e.
Proof. intros. unfold comp_prk_2e. m_auto. Qed.
#[local] Hint Resolve comp_prk_2e_m : lm.
Lemma agree_eph_m : forall p n, mute (agree_eph p n).
Proof. intros. unfold agree_eph. m_auto. Qed.
#[local] Hint Resolve agree_eph_m : lm.
Lemma agree_static_m : forall p n, mute (agree_static p n).
Proof. intros. unfold agree_static. m_auto. Qed.
#[local] Hint Resolve agree_static_m : lm.
Lemma comp_grx_m : forall a b n, mute (comp_grx a b n).
Proof. intros. unfold comp_grx. m_auto. Qed.
#[local] Hint Resolve comp_grx_m : lm.
Lemma comp_plaintext_len_m : forall m n, mute (comp_plaintext_len m n).
Proof. intros. unfold comp_plaintext_len. m_auto. Qed.
#[local] Hint Resolve comp_plaintext_len_m : lm.
Lemma fill_plaintext_m : forall a b c n, mute (fill_plaintext a b c n).
Proof. intros. unfold fill_plaintext. m_auto. Qed.
#[local] Hint Resolve fill_plaintext_m : lm.
Lemma prepare_plaintext_2_m : forall a b n, mute (prepare_plaintext_2 a b n).
Proof. intros. unfold prepare_plaintext_2. m_auto. Qed.
#[local] Hint Resolve prepare_plaintext_2_m : lm.
Lemma prepare_message_2_m : forall a n, mute (prepare_message_2 a n).
Proof. intros. unfold prepare_message_2. m_auto. Qed.
#[local] Hint Resolve prepare_message_2_m : lm.
Lemma comp_ciphertext_2_len_m : forall m, mute (comp_ciphertext_2_len m).
Proof. intros. unfold comp_ciphertext_2_len. m_auto. Qed.
#[local] Hint Resolve comp_ciphertext_2_len_m : lm.
Lemma parse_msg_2_m : forall m n, mute (parse_msg_2 m n).
Proof. intros. unfold parse_msg_2. m_auto. Qed.
#[local] Hint Resolve parse_msg_2_m : lm.
Lemma parse_id_cred_m : forall b i, mute (parse_id_cred b i).
Proof. intros. unfold parse_id_cred. m_auto. Qed.
#[local] Hint Resolve parse_id_cred_m : lm.
Lemma store_tokens_m : forall l, mute (store_tokens l).
Proof. intros. unfold store_tokens. m_auto. Qed.
#[local] Hint Resolve store_tokens_m : lm.
Lemma store_peer_cid_m : forall l, mute (store_peer_cid l).
Proof. intros. unfold store_peer_cid. m_auto. Qed.
#[local] Hint Resolve store_peer_cid_m : lm.
Lemma parse_plaintext_2_m : forall p, mute (parse_plaintext_2 p).
Proof. intros. unfold parse_plaintext_2. m_auto. Qed.
#[local] Hint Resolve parse_plaintext_2_m : lm.
Lemma comp_th_next_m : forall a b s m p, mute (comp_th_next a b s m p).
Proof. intros. unfold comp_th_next. m_auto. Qed.
#[local] Hint Resolve comp_th_next_m : lm.
Lemma comp_th_3_m : forall m p, mute (comp_th_3 m p).
Proof. intros. apply comp_th_next_m. Qed.
#[local] Hint Resolve comp_th_3_m : lm.
Lemma comp_giy_m : forall a b n, mute (comp_giy a b n).
Proof. intros. unfold comp_giy. m_auto. Qed.
#[local] Hint Resolve comp_giy_m : lm.
Lemma prepare_plaintext_3_m : forall a b n, mute (prepare_plaintext_3 a b n).
Proof. intros. unfold prepare_plaintext_3. m_auto. Qed.
#[local] Hint Resolve prepare_plaintext_3_m : lm.
Lemma aead_decrypt_m : forall a b c d n, mute (aead_decrypt a b c d n).
Proof. intros. unfold aead_decrypt. m_auto. Qed.
#[local] Hint Resolve aead_decrypt_m : lm.
Lemma decrypt_ciphertext_3_m : forall a b c d n, mute (decrypt_ciphertext_3 a b c d n).
Proof. intros. unfold decrypt_ciphertext_3. m_auto. Qed.
#[local] Hint Resolve decrypt_ciphertext_3_m : lm.
Lemma comp_th_4_m : forall m p, mute (comp_th_4 m p).
Proof. intros. apply comp_th_next_m. Qed.
#[local] Hint Resolve comp_th_4_m : lm.
Lemma gen_msg_3_m : forall a n, mute (gen_msg_3 a n).
Proof. intros. unfold gen_msg_3. m_auto. Qed.
#[local] Hint Resolve gen_msg_3_m : lm.
Lemma parse_plaintext_3_m : forall p, mute (parse_plaintext_3 p).
Proof. intros. unfold parse_plaintext_3. m_auto. Qed.
#[local] Hint Resolve parse_plaintext_3_m : lm.
Lemma prepare_plaintext_4_m : forall n, mute (prepare_plaintext_4 n).
Proof. intros. unfold prepare_plaintext_4. m_auto. Qed.
#[local] Hint Resolve prepare_plaintext_4_m : lm.
Lemma sign_cose_m : forall a b c n, mute (sign_cose_sign_1 a b c n).
Proof. intros. unfold sign_cose_sign_1. m_auto. Qed.
#[local] Hint Resolve sign_cose_m : lm.
Lemma sign_or_mac_m : forall a b c n, mute (comp_sign_or_mac a b c n).
Proof. intros. unfold comp_sign_or_mac. m_auto. Qed.
Lemma aead_encrypt_m : forall a b c d n, mute (aead_encrypt a b c d n).
Proof. intros. unfold aead_encrypt. m_auto. Qed.
#[local] Hint Resolve aead_encrypt_m : lm.
Lemma comp_ciphertext_m : forall a b c d n, mute (comp_ciphertext a b c d n).
Proof. intros. unfold comp_ciphertext. m_auto. Qed.
End Mute.
#[export] Hint Resolve alloc_m free_m import_m destroy_m mkpair_m agree_m verify_m extract_m decrypt_m hash_m fetch_m cverify_m compose_m process_m ead_compose_m ead_process_m frees_m rd_m rd_ptr_m rd_tok_m get_suite_m get_th_m get_prk_m get_dh_pub_m get_dh_priv_m get_dh_peer_m get_dh_secret_m put_th_m put_prk_m put_dh_pub_m put_dh_priv_m put_dh_peer_m put_dh_secret_m comp_id_cred_len_m comp_cred_len_m read_toks_m encode_tokens_m kid_compact_m id_cred_of_m cred_bytes_m comp_mac_context_length_m comp_mac_context_m comp_mac_length_m comp_sign_or_mac_length_m verify_cose_sign_1_m verify_sign_or_mac_m hash_into_th_m gen_dh_keys_m comp_dh_secret_m comp_th_2_m comp_prk_2e_m agree_eph_m agree_static_m comp_grx_m comp_plaintext_len_m fill_plaintext_m prepare_plaintext_2_m prepare_message_2_m comp_ciphertext_2_len_m parse_msg_2_m parse_id_cred_m store_tokens_m store_peer_cid_m parse_plaintext_2_m comp_th_next_m comp_th_3_m comp_giy_m prepare_plaintext_3_m aead_decrypt_m decrypt_ciphertext_3_m comp_th_4_m gen_msg_3_m parse_plaintext_3_m prepare_plaintext_4_m sign_m encrypt_m sign_cose_m sign_or_mac_m aead_encrypt_m comp_ciphertext_m : lm.

(** ** Labels *)
Definition occ (L : Z) (S : list Z) : nat := count_occ Z.eq_dec S L.
Definition up (g : Z) (S : list Z) {A} (m : M A) : Prop :=
  forall w, c_message (w_ctx w) = g -> match m w with
    | Ret _ w' => c_message (w_ctx w') = g /\ exists e, w_tr w' = e ++ w_tr w /\ Forall wf e /\
        forall L, 0 <= L <= 9 -> (length (filter (derives L) e) <= occ L S)%nat
    | Ub _ => True end.
Fixpoint rem1 (x : Z) (S : list Z) : list Z := match S with [] => [] | y :: S' => if y =? x then S' else y :: rem1 x S' end.
Fixpoint rem (T S : list Z) : list Z := match T with [] => S | x :: T' => rem T' (rem1 x S) end.
Fixpoint sub (T S : list Z) : bool := match T with [] => true | x :: T' => existsb (Z.eqb x) S && sub T' (rem1 x S) end.
Lemma occ_rem1 : forall L x S, existsb (Z.eqb x) S = true -> (occ L S = occ L (rem1 x S) + (if Z.eq_dec x L then 1 else 0))%nat.
Proof.
  intros L x S. induction S as [|y S IH]; cbn [existsb rem1]; [discriminate|]. rewrite Z.eqb_sym. destruct (y =? x) eqn:Q; cbn [orb]; intro H.
  - apply Z.eqb_eq in Q as ->. unfold occ. cbn [count_occ]. destruct (Z.eq_dec x L); lia.
  - specialize (IH H). unfold occ in *. cbn [count_occ]. destruct (Z.eq_dec y L); lia.
Qed.
Lemma occ_rem : forall L T S, sub T S = true -> (occ L S = occ L T + occ L (rem T S))%nat.
Proof.
  intros L T. induction T as [|x T IH]; intros S H; cbn [sub rem] in *; [reflexivity|]. apply andb_true_iff in H as [H1 H2].
  rewrite (occ_rem1 L _ _ H1), (IH _ H2). unfold occ. cbn [count_occ]. destruct (Z.eq_dec x L); lia.
Qed.
Lemma told_none : forall e L, 0 <= L <= 9 -> filter told e = [] -> filter (derives L) e = [].
Proof.
  intros e L H. induction e as [|x e IH]; [reflexivity|]. cbn [filter]. destruct (told x) eqn:T; [discriminate|]. intro F.
  destruct (derives L x) eqn:D; [|now apply IH]. exfalso. destruct x; try discriminate D. destruct info as [|a [|b i]]; try discriminate D.
  cbn [derives told] in *. apply andb_true_iff in D as [D1 D2]. apply Z.eqb_eq in D1 as ->. rewrite D2 in T.
  replace (0 <=? L) with true in T by (symmetry; apply Z.leb_le; lia). replace (L <=? 9) with true in T by (symmetry; apply Z.leb_le; lia). discriminate T.
Qed.
Section Up.
Context {E : env}.
Variable g : Z.
Lemma mute_up : forall S A (m : M A), mute m -> up g S m.
Proof.
  intros S A m H w G. specialize (H w). destruct (m w) as [a w'|]; [|exact I]. destruct H as (K & e & T & F & W). split; [congruence|].
  exists e. split; [exact T|]. split; [exact W|]. intros L HL. rewrite (told_none _ _ HL F). apply Nat.le_0_l.
Qed.
Lemma bind_up : forall T S A B (m : M A) (f : A -> M B), sub T S = true -> up g T m -> (forall x, up g (rem T S) (f x)) -> up g S (bind m f).
Proof.
  intros T S A B m f HS H1 H2 w G. specialize (H1 w G). unfold bind. destruct (m w) as [x w1|]; [|exact I].
  destruct H1 as (K1 & e1 & T1 & W1 & F1). specialize (H2 x w1 K1). destruct (f x w1) as [y w2|]; [|exact I].
  destruct H2 as (K2 & e2 & T2 & W2 & F2). split; [exact K2|]. exists (e2 ++ e1). rewrite T2, T1. split; [apply app_assoc|]. split; [apply Forall_app; now split|].
  intros L HL. rewrite filter_app, app_length, (occ_rem L _ _ HS). specialize (F1 L HL). specialize (F2 L HL). lia.
Qed.
Lemma bind_q : forall S A B (m : M A) (f : A -> M B), mute m -> (forall x, up g S (f x)) -> up g S (bind m f).
Proof. intros S A B m f H1 H2. apply (bind_up []); [reflexivity|now apply mute_up|exact H2]. Qed.
End Up.
Create HintDb lu.
Ltac up_all :=
  lazymatch goal with
  | |- up _ _ (bind _ _) =>
      first [ apply bind_q; [solve [m_auto]|intro; up_all]
            | eapply bind_up; [|solve [eauto 2 with lu nocore]|]; [vm_compute; reflexivity|cbn; intro; up_all] ]
  | |- up _ _ (if ?b then _ else _) => split_bool b; up_all
  | |- up _ _ (match ?x with _ => _ end) => destruct x; up_all
  | |- up _ _ (let _ := _ in _) => cbv zeta; up_all
  | |- up _ _ _ => first [apply mute_up; solve [m_auto] | solve [eauto 2 with lu nocore]]
  end.
Lemma enc_int_small : forall l, 0 <= l < 24 -> enc_int l = [l].
Proof.
  intros l H. unfold enc_int. replace (l <? 0) with false by (symmetry; apply Z.ltb_ge; lia). unfold enc_head.
  replace (l <? 24) with true by (symmetry; apply Z.ltb_lt; lia). cbn. f_equal; lia.
Qed.
Lemma enc_int_big : forall l, 24 <= l <= 65535 -> exists x r, enc_int l = x :: r /\ 24 <= x.
Proof.
  intros l H. unfold enc_int. replace (l <? 0) with false by (symmetry; apply Z.ltb_ge; lia). unfold enc_head.
  replace (l <? 24) with false by (symmetry; apply Z.ltb_ge; lia). repeat match goal with |- exists _ _, (if ?b then _ else _) = _ /\ _ => destruct b end; eexists _, _; (split; [reflexivity|cbn; lia]).
Qed.
Lemma told_label : forall l c n k m r o, 0 <= l <= 65535 -> told (EvExpand k (enc_info l c n) m r o) = true -> l <= 9 /\ forall L, derives L (EvExpand k (enc_info l c n) m r o) = (l =? L).
Proof.
  intros l c n k m r o H. unfold enc_info. destruct (Z_lt_dec l 24) as [Q|Q].
  - rewrite enc_int_small by lia. cbn [app]. unfold told, derives. destruct (enc_bstr c ++ enc_int n); [discriminate|]. intro T.
    apply andb_true_iff in T as [T1 T2]. apply andb_true_iff in T1 as [_ T1]. apply Z.leb_le in T1. split; [exact T1|]. intro L. now rewrite T2, andb_true_r.
  - destruct (enc_int_big l) as (x & y & -> & X); [lia|]. cbn [app]. unfold told. destruct (y ++ enc_bstr c ++ enc_int n); [discriminate|]. intro T.
    apply andb_true_iff in T as [T1 T2]. apply andb_true_iff in T1 as [_ T1]. apply Z.leb_le in T1. lia.
Qed.
Lemma wf_info : forall l c n k m r o, 0 <= l <= 65535 -> wf (EvExpand k (enc_info l c (u32 n)) m r o).
Proof. intros l c n k m r o H. cbn [wf]. exists l, c, (u32 n). split; [exact H|]. split; [apply Z.mod_pos_bound; lia|apply enc_info_rfc]. Qed.
Lemma told_free : forall l c n k m r o, 0 <= l <= 65535 -> 9 < l \/ c = [] -> told (EvExpand k (enc_info l c n) m r o) = false.
Proof.
  intros l c n k m r o H H'. destruct (told _) eqn:T; [|reflexivity]. exfalso. pose proof T as T'. apply told_label in T' as [T' _]; [|exact H]. destruct H' as [H'| ->]; [lia|].
  unfold enc_info in T. rewrite enc_int_small in T by lia. cbn in T. rewrite andb_false_r in T. discriminate T.
Qed.
Section Funs.
Context {E : env}.
Variable g : Z.
Lemma emit_up : forall l c m k n r o, 0 <= l <= 65535 -> up g [l] (emit (EvExpand k (enc_info l c (u32 m)) n r o)).
Proof.
  intros l c m k n r o H w G. split; [exact G|]. eexists [_]. split; [reflexivity|]. split; [constructor; [now apply wf_info|constructor]|].
  intros L HL. cbn [filter]. destruct (derives L _) eqn:D; [|apply Nat.le_0_l].
  assert (T : told (EvExpand k (enc_info l c (u32 m)) n r o) = true).
  { unfold derives in D. unfold told. destruct (enc_info l c (u32 m)) as [|x [|y i]]; try discriminate D. apply andb_true_iff in D as [D1 D2]. apply Z.eqb_eq in D1 as ->. rewrite D2.
    rewrite andb_true_r. apply andb_true_iff. split; apply Z.leb_le; lia. }
  destruct (told_label _ _ _ _ _ _ _ H T) as [_ X]. rewrite X in D. apply Z.eqb_eq in D as ->. unfold occ. cbn [count_occ length]. destruct (Z.eq_dec L L); [lia|congruence].
Qed.
Lemma expand_up : forall l c m k n, 0 <= l <= 65535 -> up g [l] (call_expand k (enc_info l c (u32 m)) n).
Proof.
  intros l c m k n H. unfold call_expand, out_ok. do 3 (apply bind_q; [m_auto|intro]). destruct (o_expand _ _ _ _ _) as [r out].
  apply (bind_up g [l]); [cbn [sub existsb]; now rewrite Z.eqb_refl|now apply emit_up|]. intro. cbn [rem rem1]. rewrite Z.eqb_refl. apply mute_up. m_auto.
Qed.
Lemma kdf_up : forall x len l cx k n, 0 <= l <= 65535 -> mute cx -> mute k -> up g [l] (kdf x len l cx k n).
Proof.
  intros x len l cx k n HL H1 H2. unfold kdf. apply bind_q; [m_auto|intros ok]. destruct (negb ok); [apply mute_up; m_auto|].
  apply bind_q; [exact H1|intros c]. destruct (fits _ _) as [i|] eqn:F; [|apply mute_up; m_auto]. apply fits_some in F as [-> _].
  destruct (x && _); [apply mute_up; m_auto|]. apply bind_q; [exact H2|intros p]. apply bind_q; [m_auto|intros [r kid]]. destruct (negb _); [apply mute_up; m_auto|].
  apply (bind_up g [l]); [cbn [sub existsb]; now rewrite Z.eqb_refl|now apply expand_up|]. intros [r' o]. cbn [rem rem1]. rewrite Z.eqb_refl. apply mute_up. m_auto.
Qed.
End Funs.
Ltac up_kdf := repeat lazymatch goal with
  | |- up _ _ (kdf _ _ _ _ _ _) => apply kdf_up; [vm_compute; split; discriminate|m_auto|m_auto]
  | |- up _ _ (bind _ _) => apply bind_q; [solve [m_auto]|intro]
  | |- up _ _ (if ?b then _ else _) => split_bool b
  | |- up _ _ _ => apply mute_up; solve [m_auto]
  end.
Section Funs2.
Context {E : env}.
Variable g : Z.
Lemma salt_3_up : forall n, up g [1] (comp_salt_3e2m n).
Proof. intro n. unfold comp_salt_3e2m. up_kdf. Qed.
Lemma salt_4_up : forall n, up g [5] (comp_salt_4e3m n).
Proof. intro n. unfold comp_salt_4e3m. up_kdf. Qed.
Lemma keystream_up : forall p n, up g [0] (comp_keystream p n).
Proof. intros p n. unfold comp_keystream. up_kdf. Qed.
Lemma static_up : forall l s f n, (forall k, up g [l] (s k)) -> (forall k, mute (f k)) -> up g [l] (prk_static s f n).
Proof.
  intros l s f n H1 H2. unfold prk_static. do 2 (apply bind_q; [m_auto|intro]). destruct (negb _); [apply mute_up; m_auto|].
  apply (bind_up g [l]); [cbn [sub existsb]; now rewrite Z.eqb_refl|apply H1|]. intros [r' o]. cbn [rem rem1]. rewrite Z.eqb_refl. apply mute_up. 
  destruct (negb _); [m_auto|]. apply bind_m; [m_auto|intro]. destruct (negb _); [m_auto|]. apply bind_m; [apply H2|intro]. m_auto.
Qed.
Lemma prk_3_up : forall cr p, up g [1] (comp_prk_3e2m cr p).
Proof.
  intros cr p. unfold comp_prk_3e2m. apply bind_q; [m_auto|intro]. cbv zeta. repeat lazymatch goal with |- up _ _ (if ?b then _ else _) => destruct b end;
    first [apply mute_up; solve [m_auto] | apply static_up; [apply salt_3_up|intro; m_auto]].
Qed.
Lemma prk_4_up : forall cr p, up g [5] (comp_prk_4e3m cr p).
Proof.
  intros cr p. unfold comp_prk_4e3m. apply bind_q; [m_auto|intro]. cbv zeta. repeat lazymatch goal with |- up _ _ (if ?b then _ else _) => destruct b end;
    first [apply mute_up; solve [m_auto] | apply static_up; [apply salt_4_up|intro; m_auto]].
Qed.
Lemma part_up : forall len l n, 0 <= l <= 65535 -> up g [l] (expand_part len l n).
Proof.
  intros len l n HL. unfold expand_part. apply bind_q; [m_auto|intro t]. destruct (fits _ _) as [i|] eqn:F; [|apply mute_up; m_auto]. apply fits_some in F as [-> _].
  apply bind_q; [m_auto|intro]. apply bind_q; [m_auto|intros [r kid]]. destruct (negb _); [apply mute_up; m_auto|].
  apply (bind_up g [l]); [cbn [sub existsb]; now rewrite Z.eqb_refl|now apply expand_up|]. intros [r' o]. cbn [rem rem1]. rewrite Z.eqb_refl. apply mute_up. m_auto.
Qed.
Lemma part_3 : forall len n, up g [3] (expand_part len L_K_3 n). Proof. intros. apply part_up. vm_compute. split; discriminate. Qed.
Lemma part_4 : forall len n, up g [4] (expand_part len L_IV_3 n). Proof. intros. apply part_up. vm_compute. split; discriminate. Qed.
Lemma part_8 : forall len n, up g [8] (expand_part len L_K_4 n). Proof. intros. apply part_up. vm_compute. split; discriminate. Qed.
Lemma part_9 : forall len n, up g [9] (expand_part len L_IV_4 n). Proof. intros. apply part_up. vm_compute. split; discriminate. Qed.
End Funs2.
#[export] Hint Resolve prk_3_up prk_4_up keystream_up part_3 part_4 part_8 part_9 : lu.
Section More.
Context {E : env}.
Lemma key_3_up : forall g a b n, up g [3; 4] (comp_key_iv_aad_3 a b n).
Proof. intros g a b n. unfold comp_key_iv_aad_3, key_iv_aad. up_all. Qed.
Lemma key_4_up : forall g a b n, up g [8; 9] (compute_key_iv_aad_4 a b n).
Proof. intros g a b n. unfold compute_key_iv_aad_4, key_iv_aad. up_all. Qed.
(** The label of a MAC is that of the message. *)
Lemma mac_up : forall g m n, g = MSG_2 \/ g = MSG_3 -> up g [if g =? MSG_2 then 2 else 6] (comp_mac m n).
Proof.
  intros g m n HG w G. unfold comp_mac. destruct (n =? 0); [apply mute_up; [m_auto|exact G]|]. unfold bind at 1, getc at 1. destruct w as [c t]. cbn [w_ctx] in *.
  rewrite G. match goal with |- match ?m (Wd c t) with _ => _ end => cut (up g [if g =? MSG_2 then 2 else 6] m); [intro X; exact (X (Wd c t) G)|] end.
  assert (L : (if g =? MSG_2 then L_MAC_2 else if g =? MSG_3 then L_MAC_3 else 0) = (if g =? MSG_2 then 2 else 6)) by (destruct HG; subst g; reflexivity).
  rewrite L. assert (0 <= (if g =? MSG_2 then 2 else 6) <= 65535) by (destruct (g =? MSG_2); lia). generalize dependent (if g =? MSG_2 then 2 else 6). intros l L HL.
  repeat lazymatch goal with |- up _ _ (if ?b then _ else _) => destruct b; [apply mute_up; m_auto|] end. cbv zeta. apply bind_q; [m_auto|intro]. destruct (negb _); [apply mute_up; m_auto|].
  destruct (fits _ _) as [i|] eqn:F; [|apply mute_up; m_auto]. apply fits_some in F as [-> _]. destruct (negb _); [apply mute_up; m_auto|].
  apply bind_q; [m_auto|intro]. apply bind_q; [m_auto|intros [r kid]]. destruct (negb _); [apply mute_up; m_auto|].
  apply (bind_up g [l]); [cbn [sub existsb]; now rewrite Z.eqb_refl|now apply expand_up|]. intros [r' o]. cbn [rem rem1]. rewrite Z.eqb_refl. apply mute_up. m_auto.
Qed.
Lemma mac_2_up : forall m n, up MSG_2 [2] (comp_mac m n). Proof. intros. apply (mac_up MSG_2). now left. Qed.
Lemma mac_3_up : forall m n, up MSG_3 [6] (comp_mac m n). Proof. intros. apply (mac_up MSG_3). now right. Qed.
End More.
#[export] Hint Resolve key_3_up key_4_up mac_2_up mac_3_up : lu.
Definition tot (S : list Z) {A} (m : M A) : Prop :=
  forall w, match m w with
    | Ret _ w' => exists e, w_tr w' = e ++ w_tr w /\ Forall wf e /\ forall L, 0 <= L <= 9 -> (length (filter (derives L) e) <= occ L S)%nat
    | Ub _ => True end.
Section Whole.
Context {E : env}.
Lemma up_tot : forall S A (m : M A), (forall g, up g S m) -> tot S m.
Proof. intros S A m H w. specialize (H _ w eq_refl). destruct (m w); [|exact I]. exact (proj2 H). Qed.
Lemma mute_tot : forall S A (m : M A), mute m -> tot S m.
Proof. intros S A m H. apply up_tot. intro g. now apply mute_up. Qed.
Lemma getc_tot : forall S A (f : ctx -> M A), (forall c, tot S (f c)) -> tot S (bind getc f).
Proof. intros S A f H w. unfold bind, getc. apply H. Qed.
Lemma enter_tot : forall S A msg role (k : M A), up msg S k -> tot S (enter msg role ;;; k).
Proof.
  intros S A msg role k H [c t]. unfold enter, bind, modify. cbn [w_ctx w_tr].
  match goal with |- match k ?w with _ => _ end => specialize (H w eq_refl); destruct (k w) end; [|exact I]. exact (proj2 H).
Qed.
Ltac start := unfold fail, failp; repeat lazymatch goal with
  | |- tot _ (if ?b then _ else _) => destruct b; [apply mute_tot; m_auto|]
  | |- tot _ (bind getc _) => apply getc_tot; intro
  | |- tot _ (enter _ _ ;;; _) => apply enter_tot
  end.
Lemma m1_compose_t : forall nn n, tot [] (message_1_compose nn n).
Proof. intros. unfold message_1_compose. start. up_all. Qed.
Lemma m1_process_t : forall nn n, tot [] (message_1_process nn n).
Proof. intros. unfold message_1_process. start. up_all. Qed.
Lemma m2_compose_t : forall nn n, tot [0; 1; 2] (message_2_compose nn n).
Proof. intros. unfold message_2_compose. start. up_all. Qed.
Lemma m2_process_t : forall nn n, tot [0; 1; 2] (message_2_process nn n).
Proof. intros. unfold message_2_process. start. up_all. Qed.
Lemma m3_compose_t : forall nn n, tot [5; 6; 3; 4] (message_3_compose nn n).
Proof. intros. unfold message_3_compose. start. up_all. Qed.
Lemma m3_process_t : forall nn n, tot [5; 6; 3; 4] (message_3_process nn n).
Proof. intros. unfold message_3_process. start. up_all. Qed.
Lemma m4_compose_t : forall nn n, tot [8; 9] (message_4_compose nn n).
Proof. intros. unfold message_4_compose. start. up_all. Qed.
Lemma m4_process_t : forall nn n, tot [8; 9] (message_4_process nn n).
Proof. intros. unfold message_4_process. start. up_all. Qed.
Lemma into_prk_up : forall g len l cx, 0 <= l <= 65535 -> mute cx -> up g [l] (kdf_into_prk len l cx).
Proof.
  intros g len l cx HL H1. unfold kdf_into_prk. do 2 (apply bind_q; [m_auto|intro]). destruct (negb _); [apply mute_up; m_auto|].
  apply bind_q; [exact H1|intros c]. destruct (fits _ _) as [i|] eqn:F; [|apply mute_up; m_auto]. apply fits_some in F as [-> _].
  apply bind_q; [m_auto|intros p]. apply bind_q; [m_auto|intros [r kid]]. destruct (negb _); [apply mute_up; m_auto|]. apply bind_q; [m_auto|intro].
  apply (bind_up g [l]); [cbn [sub existsb]; now rewrite Z.eqb_refl|now apply expand_up|]. intros [r' o]. cbn [rem rem1]. rewrite Z.eqb_refl. apply mute_up. m_auto.
Qed.
Lemma prk_out_up : forall g, up g [7] compute_prk_out.
Proof. intro g. unfold compute_prk_out. up_kdf. apply into_prk_up; [vm_compute; split; discriminate|m_auto]. Qed.
Lemma new_prk_up : forall g e, up g [11] (compute_new_prk_out e).
Proof. intros g e. unfold compute_new_prk_out. up_kdf. apply into_prk_up; [vm_compute; split; discriminate|m_auto]. Qed.
Lemma prk_exp_up : forall g n, up g [10] (compute_prk_exporter n).
Proof. intros g n. unfold compute_prk_exporter. up_kdf. Qed.
#[local] Hint Resolve prk_out_up new_prk_up prk_exp_up : lu.
Lemma maybe_out_up : forall g (b : bool), up g [7] (if b then compute_prk_out else ret OK).
Proof. intros g []; [apply prk_out_up|apply mute_up; m_auto]. Qed.
#[local] Hint Extern 1 (up _ _ (if _ then compute_prk_out else ret OK)) => (apply maybe_out_up) : lu.
Lemma export_up : forall g nn label n, up g [7; 10] (export_prk_exporter nn label n).
Proof.
  intros g nn label n. unfold export_prk_exporter. destruct (_ || _); [apply mute_up; m_auto|]. destruct (label_allowed label) eqn:LA; cbn [negb]; [|apply mute_up; m_auto].
  assert (HL : 0 <= label <= 65535).
  { unfold label_allowed in LA. apply orb_true_iff in LA as [LA|LA]; [apply orb_true_iff in LA as [LA|LA]; apply Z.eqb_eq in LA; lia|].
    apply andb_true_iff in LA as [L1 L2]. apply Z.leb_le in L1, L2. lia. }
  apply bind_q; [m_auto|intro c]. destruct (_ || _); [apply mute_up; m_auto|]. apply bind_q; [m_auto|intro s].
  apply (bind_up g [7]); [reflexivity|apply maybe_out_up|]. intro r. cbn [rem rem1 Z.eqb Pos.eqb]. destruct (negb _); [apply mute_up; m_auto|].
  apply bind_q; [m_auto|intro]. destruct (negb _); [apply mute_up; m_auto|].
  apply (bind_up g [10]); [reflexivity|apply prk_exp_up|]. intros [r' pe]. cbn [rem rem1 Z.eqb Pos.eqb]. destruct (negb _); [apply mute_up; m_auto|]. cbv zeta.
  apply bind_q; [m_auto|intro]. destruct (negb _); [apply mute_up; m_auto|]. destruct (fits _ _) as [i|] eqn:F; [|apply mute_up; m_auto]. apply fits_some in F as [-> _].
  apply mute_up. apply bind_m; [m_auto|intros [r2 kid]]. destruct (negb _); [m_auto|]. apply bind_m; [m_auto|intro].
  apply bind_m; [apply expand_m; [apply told_free; [exact HL|now right]|now apply wf_info]|intros [r3 o]]. m_auto.
Qed.
#[local] Hint Resolve export_up : lu.
Lemma export_t : forall nn label n, tot [7; 10] (export_prk_exporter nn label n).
Proof. intros nn label n. apply up_tot. intro g. apply export_up. Qed.
Lemma update_t : forall nn e, tot [7; 11] (export_key_update nn e).
Proof. intros nn e. apply up_tot. intro g. unfold export_key_update. up_all. Qed.
Lemma oscore_t : forall nn a b c d, tot [7; 10; 7; 10] (export_oscore_session nn a b c d).
Proof. intros nn a b c d. apply up_tot. intro g. unfold export_oscore_session. up_all. Qed.
End Whole.
