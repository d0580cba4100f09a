(** A call that reports success was refused nothing.  No code of /repo is modelled here. *)
From Verif Require Import Monad Api Common Msg1 Msg2 Msg3 Msg4 Exporter History Logic Frame Replies.

Definition gd {A} (Q : A -> Prop) (m : M A) : Prop :=
  forall w a w', m w = Ret a w' -> Q a \/ exists e, w_tr w' = e ++ w_tr w /\ Forall granted e.
Definition fl {A} (Q : A -> Prop) (m : M A) : Prop := forall w a w', m w = Ret a w' -> Q a.
Definition never {A} : A -> Prop := fun _ => False.
Definition badz (r : Z) : Prop := r <> OK.
Definition badp {A} (x : Z * A) : Prop := fst x <> OK.
Definition badpp {A B} (x : Z * A * B) : Prop := fst (fst x) <> OK.
Definition badb (b : bool) : Prop := b = false.

Lemma gd_bind : forall A B (Qm : A -> Prop) (Q : B -> Prop) (m : M A) (k : A -> M B),
  gd Qm m -> (forall a, gd Q (k a)) -> (forall a, Qm a -> fl Q (k a)) -> gd Q (bind m k).
Proof.
  intros A B Qm Q m k H1 H2 H3 w b w' R. apply bind_inv in R. destruct R as (a & w1 & R1 & R2).
  destruct (H1 _ _ _ R1) as [F|(e1 & T1 & F1)]; [left; eapply H3; eassumption|].
  destruct (H2 _ _ _ _ R2) as [F|(e2 & T2 & F2)]; [now left|]. right. exists (e2 ++ e1).
  rewrite T2, T1. split; [apply app_assoc|]. now apply Forall_app.
Qed.
Lemma gd_bind0 : forall A B (Q : B -> Prop) (m : M A) (k : A -> M B),
  gd never m -> (forall a, gd Q (k a)) -> gd Q (bind m k).
Proof. intros. eapply gd_bind; [eassumption|assumption|]. intros a []. Qed.
Lemma gd_never : forall A (Q : A -> Prop) (m : M A), gd never m -> gd Q m.
Proof. intros A Q m H w a w' R. destruct (H _ _ _ R) as [[]|X]. now right. Qed.
Lemma gd_same : forall A (m : M A), (forall w a w', m w = Ret a w' -> w_tr w' = w_tr w) -> gd never m.
Proof. intros A m H w a w' R. right. exists []. rewrite (H _ _ _ R). now split. Qed.
Lemma ret_g : forall A (a : A), gd never (ret a). Proof. intros. apply gd_same. intros ? ? ? R. now inversion R. Qed.
Lemma getc_g : gd never getc. Proof. apply gd_same. intros ? ? ? R. now inversion R. Qed.
Lemma trace_g : gd never trace. Proof. apply gd_same. intros ? ? ? R. now inversion R. Qed.
Lemma modify_g : forall f, gd never (modify f). Proof. intros. apply gd_same. intros ? ? ? R. now inversion R. Qed.
Lemma fault_g : forall A u, gd never (@fault A u). Proof. intros. apply gd_same. intros ? ? ? R. discriminate. Qed.
Lemma check_g : forall b u, gd never (check b u).
Proof. intros. apply gd_same. intros ? ? ? R. apply check_inv in R. now destruct R; subst. Qed.
Lemma need_g : forall A (o : option A) u, gd never (need o u).
Proof. intros. apply gd_same. intros ? ? ? R. apply need_inv in R. now destruct R; subst. Qed.
Lemma emit_g : forall e, granted e -> gd never (emit e).
Proof. intros e H w a w' R. inversion R; subst. right. exists [e]. split; [reflexivity|]. now constructor. Qed.
(** An event whose reply is passed on. *)
Lemma emitted_g : forall A (Q : A -> Prop) e (m : M A), (~ granted e -> fl Q m) -> gd Q m -> gd Q (emit e ;;; m).
Proof.
  intros A Q e m H1 H2 w a w' R. apply bind_inv in R. destruct R as ([] & w1 & R1 & R2). inversion R1; subst.
  destruct (H2 _ _ _ R2) as [F|(e2 & T2 & F2)]; [now left|]. cbn [w_tr] in T2.
  assert (D : granted e \/ ~ granted e).
  { destruct e; cbn [granted]; try (left; exact I); try apply Z.eq_decidable. destruct ok; [now left|right; discriminate]. }
  destruct D as [D|D]; [|left; eapply H1; eassumption].
  right. exists (e2 ++ [e]). rewrite T2, <- app_assoc. split; [reflexivity|]. apply Forall_app. split; [assumption|now constructor].
Qed.
Lemma fl_bind : forall A B (Q : B -> Prop) (m : M A) (k : A -> M B), (forall a, fl Q (k a)) -> fl Q (bind m k).
Proof. intros A B Q m k H w b w' R. apply bind_inv in R. destruct R as (a & w1 & R1 & R2). eapply H. eassumption. Qed.
Lemma fl_ret : forall A (Q : A -> Prop) a, Q a -> fl Q (ret a).
Proof. intros A Q a H w b w' R. now inversion R; subst. Qed.
Lemma fl_fault : forall A (Q : A -> Prop) u, fl Q (fault u). Proof. intros A Q u w a w' R. discriminate. Qed.

Create HintDb gd discriminated.
#[export] Hint Constants Opaque : gd.
#[export] Hint Transparent bytes M : gd.
#[export] Hint Resolve ret_g getc_g trace_g modify_g fault_g check_g need_g : gd.
Ltac bad_done :=
  unfold badz, badp, badpp, badb, never in *; cbn [fst snd] in *; subst;
  first [ assumption | discriminate | contradiction
        | match goal with H : ?r <> OK |- (?r =? OK) = false => apply Z.eqb_neq; exact H end
        | match goal with H : ?r <> OK |- ((?r =? OK) && _) = false => rewrite (proj2 (Z.eqb_neq _ _) H); reflexivity end ].
Ltac f_step :=
  cbn [fst snd] in *;
  lazymatch goal with
  | |- fl _ (bind _ _) => apply fl_bind; intro
  | |- fl _ (ret _) => apply fl_ret
  | |- fl _ (fault _) => apply fl_fault
  | |- fl _ (fail _ _) => unfold fail
  | |- fl _ (failp _ _) => unfold failp
  | H : ?r <> OK |- fl _ (if negb (?r =? OK) then _ else _) => rewrite (proj2 (Z.eqb_neq _ _) H); cbn [negb orb andb]; cbv iota
  | H : ?r <> OK |- fl _ (if negb (?r =? OK) || _ then _ else _) => rewrite (proj2 (Z.eqb_neq _ _) H); cbn [negb orb andb]; cbv iota
  | H : ?r <> OK |- fl _ (if negb (?r =? OK) || _ || _ then _ else _) => rewrite (proj2 (Z.eqb_neq _ _) H); cbn [negb orb andb]; cbv iota
  | H : ?b = false |- fl _ (if negb ?b then _ else _) => rewrite H; cbn [negb]; cbv iota
  | |- fl _ (if ?b then _ else _) => split_bool b
  | |- fl _ (match ?x with _ => _ end) => destruct x
  | |- fl _ (let _ := _ in _) => cbv zeta
  | |- fl _ ((fun _ => _) _) => cbv beta
  end.
Ltac f_auto := unfold badz, badp, badpp, badb, never in *; repeat f_step; try bad_done.
Ltac f_open := let x := fresh "x" in let Hx := fresh "Hx" in intros x Hx; cbn [fst snd] in *; try contradiction; f_auto.
Ltac bad_of A :=
  lazymatch A with
  | Z => constr:(badz) | bool => constr:(badb)
  | (Z * ?B)%type => constr:(@badp B)
  | (Z * ?B * ?C)%type => constr:(@badpp B C)
  | _ => constr:(@never A)
  end.
Ltac g_step :=
  lazymatch goal with
  | |- gd _ (bind (emit _) _) => apply emitted_g; [intro; cbn [granted] in *; f_auto|]
  | |- gd never (bind _ _) => eapply gd_bind0; [|intro]
  | |- gd _ (bind ?m _) =>
      first [ eapply gd_bind0; [solve [auto 2 with gd nocore]|intro]
            | eapply gd_bind; [solve [eauto 2 with gd nocore]|intro|f_open]
            | lazymatch type of m with M ?A => let q := bad_of A in
                apply (gd_bind A _ q); [|intro|f_open] end ]
  | |- gd _ (fail _ _) => unfold fail
  | |- gd _ (failp _ _) => unfold failp
  | |- gd _ (if ?b then _ else _) => split_bool b
  | |- gd _ (match ?x with _ => _ end) => destruct x
  | |- gd _ (let _ := _ in _) => cbv zeta
  | |- gd _ ((fun _ => _) _) => cbv beta
  | |- gd _ _ => solve [eauto 2 with gd nocore | apply gd_never; auto 2 with gd nocore]
  end.
Ltac g_auto := repeat g_step.

Section Replies.
Context {E : env}.
Lemma alloc_g : forall b n, gd badb (alloc b n).
Proof.
  intros b n. unfold alloc. destruct cf_stack.
  - apply gd_never. apply gd_bind0; [apply check_g|intro]. apply gd_bind0; [now apply emit_g|intro]. apply ret_g.
  - g_auto. all: unfold badb in *; match goal with H : ~ ?x = true |- _ => destruct x; [now destruct H|reflexivity] end.
Qed.
Lemma free_g : forall b, gd never (free b).
Proof. intros. unfold free. g_auto. now apply emit_g. Qed.
#[local] Hint Resolve alloc_g free_g : gd.
Lemma call_import_g : forall a b, gd badp (call_import a b).
Proof. intros. unfold call_import, out_ok. g_auto. Qed.
#[local] Hint Resolve call_import_g : gd.
Lemma call_mkpair_g : forall a b c, gd badpp (call_mkpair a b c).
Proof. intros. unfold call_mkpair, out_ok. g_auto. Qed.
#[local] Hint Resolve call_mkpair_g : gd.
Lemma call_agree_g : forall a b c, gd badp (call_agree a b c).
Proof. intros. unfold call_agree, out_ok. g_auto. Qed.
#[local] Hint Resolve call_agree_g : gd.
Lemma call_sign_g : forall a b c, gd badp (call_sign a b c).
Proof. intros. unfold call_sign, out_ok. g_auto. Qed.
#[local] Hint Resolve call_sign_g : gd.
Lemma call_verify_g : forall a b c, gd badz (call_verify a b c).
Proof. intros. unfold call_verify, out_ok. g_auto. Qed.
#[local] Hint Resolve call_verify_g : gd.
Lemma call_extract_g : forall a b c, gd badp (call_extract a b c).
Proof. intros. unfold call_extract, out_ok. g_auto. Qed.
#[local] Hint Resolve call_extract_g : gd.
Lemma call_expand_g : forall a b c, gd badp (call_expand a b c).
Proof. intros. unfold call_expand, out_ok. g_auto. Qed.
#[local] Hint Resolve call_expand_g : gd.
Lemma call_encrypt_g : forall a b c d n, gd badp (call_encrypt a b c d n).
Proof. intros. unfold call_encrypt, out_ok. g_auto. Qed.
#[local] Hint Resolve call_encrypt_g : gd.
Lemma call_decrypt_g : forall a b c d n, gd badp (call_decrypt a b c d n).
Proof. intros. unfold call_decrypt, out_ok. g_auto. Qed.
#[local] Hint Resolve call_decrypt_g : gd.
Lemma call_hash_g : forall a b, gd badp (call_hash a b).
Proof. intros. unfold call_hash, out_ok. g_auto. Qed.
#[local] Hint Resolve call_hash_g : gd.
Lemma call_fetch_g : gd badp (call_fetch).
Proof. unfold call_fetch, out_ok. g_auto. Qed.
#[local] Hint Resolve call_fetch_g : gd.
Lemma call_cverify_g : forall a, gd badpp (call_cverify a).
Proof. intros. unfold call_cverify, out_ok. g_auto. Qed.
#[local] Hint Resolve call_cverify_g : gd.
Lemma call_compose_g : forall a b c, gd badp (call_compose a b c).
Proof. intros. unfold call_compose, out_ok. g_auto. Qed.
#[local] Hint Resolve call_compose_g : gd.
Lemma call_process_g : forall a b c, gd badz (call_process a b c).
Proof. intros. unfold call_process, out_ok. g_auto. Qed.
#[local] Hint Resolve call_process_g : gd.
Lemma call_destroy_g : forall a, gd never (call_destroy a).
Proof. intros. unfold call_destroy. g_auto. Qed.
#[local] Hint Resolve call_destroy_g : gd.
Lemma rd_g : forall a b c, gd never (rd a b c).
Proof. intros. unfold rd. g_auto. Qed.
#[local] Hint Resolve rd_g : gd.
Lemma rd_ptr_g : forall a b, gd never (rd_ptr a b).
Proof. intros. unfold rd_ptr. g_auto. Qed.
#[local] Hint Resolve rd_ptr_g : gd.
Lemma rd_tok_g : forall a b, gd never (rd_tok a b).
Proof. intros. unfold rd_tok. g_auto. Qed.
#[local] Hint Resolve rd_tok_g : gd.
Lemma get_suite_g : gd never (get_suite).
Proof. unfold get_suite. g_auto. Qed.
#[local] Hint Resolve get_suite_g : gd.
Lemma get_th_g : gd never (get_th).
Proof. unfold get_th. g_auto. Qed.
#[local] Hint Resolve get_th_g : gd.
Lemma get_prk_g : gd never (get_prk).
Proof. unfold get_prk. g_auto. Qed.
#[local] Hint Resolve get_prk_g : gd.
Lemma get_dh_pub_g : gd never (get_dh_pub).
Proof. unfold get_dh_pub. g_auto. Qed.
#[local] Hint Resolve get_dh_pub_g : gd.
Lemma get_dh_priv_g : gd never (get_dh_priv).
Proof. unfold get_dh_priv. g_auto. Qed.
#[local] Hint Resolve get_dh_priv_g : gd.
Lemma get_dh_peer_g : gd never (get_dh_peer).
Proof. unfold get_dh_peer. g_auto. Qed.
#[local] Hint Resolve get_dh_peer_g : gd.
Lemma get_dh_secret_g : gd never (get_dh_secret).
Proof. unfold get_dh_secret. g_auto. Qed.
#[local] Hint Resolve get_dh_secret_g : gd.
Lemma put_th_g : forall a, gd never (put_th a).
Proof. intros. unfold put_th, wr. g_auto. Qed.
#[local] Hint Resolve put_th_g : gd.
Lemma put_prk_g : forall a, gd never (put_prk a).
Proof. intros. unfold put_prk, wr. g_auto. Qed.
#[local] Hint Resolve put_prk_g : gd.
Lemma put_dh_pub_g : forall a, gd never (put_dh_pub a).
Proof. intros. unfold put_dh_pub, wr. g_auto. Qed.
#[local] Hint Resolve put_dh_pub_g : gd.
Lemma put_dh_priv_g : forall a, gd never (put_dh_priv a).
Proof. intros. unfold put_dh_priv, wr. g_auto. Qed.
#[local] Hint Resolve put_dh_priv_g : gd.
Lemma put_dh_peer_g : forall a, gd never (put_dh_peer a).
Proof. intros. unfold put_dh_peer, wr. g_auto. Qed.
#[local] Hint Resolve put_dh_peer_g : gd.
Lemma put_dh_secret_g : forall a, gd never (put_dh_secret a).
Proof. intros. unfold put_dh_secret, wr. g_auto. Qed.
#[local] Hint Resolve put_dh_secret_g : gd.
Lemma frees_g : forall l, gd never (frees l).
Proof. induction l; cbn [frees]; g_auto. Qed.
#[local] Hint Resolve frees_g : gd.
Lemma comp_id_cred_len_g : forall a, gd never (comp_id_cred_len a).
Proof. intros. unfold comp_id_cred_len. g_auto. Qed.
#[local] Hint Resolve comp_id_cred_len_g : gd.
Lemma comp_cred_len_g : forall a, gd never (comp_cred_len a).
Proof. intros. unfold comp_cred_len. g_auto. Qed.
#[local] Hint Resolve comp_cred_len_g : gd.
Lemma read_toks_g : forall p l, gd never (read_toks p l).
Proof. induction l; cbn [read_toks]; g_auto. Qed.
#[local] Hint Resolve read_toks_g : gd.
Lemma encode_tokens_g : forall p n l, gd never (encode_tokens p n l).
Proof. intros. unfold encode_tokens. g_auto. Qed.
#[local] Hint Resolve encode_tokens_g : gd.
Lemma kid_compact_encoding_g : forall a, gd never (kid_compact_encoding a).
Proof. intros. unfold kid_compact_encoding. g_auto. Qed.
#[local] Hint Resolve kid_compact_encoding_g : gd.
Lemma id_cred_of_g : forall a, gd never (id_cred_of a).
Proof. intros. unfold id_cred_of. g_auto. Qed.
#[local] Hint Resolve id_cred_of_g : gd.
Lemma cred_bytes_g : forall a n, gd never (cred_bytes a n).
Proof. intros. unfold cred_bytes. g_auto. Qed.
#[local] Hint Resolve cred_bytes_g : gd.
Lemma comp_mac_context_length_g : forall a, gd never (comp_mac_context_length a).
Proof. intros. unfold comp_mac_context_length. g_auto. Qed.
#[local] Hint Resolve comp_mac_context_length_g : gd.
Lemma comp_mac_context_g : forall a n, gd never (comp_mac_context a n).
Proof. intros. unfold comp_mac_context. g_auto. Qed.
#[local] Hint Resolve comp_mac_context_g : gd.
Lemma comp_mac_length_g : gd never (comp_mac_length).
Proof. unfold comp_mac_length. g_auto. Qed.
#[local] Hint Resolve comp_mac_length_g : gd.
Lemma comp_sign_or_mac_length_g : gd never (comp_sign_or_mac_length).
Proof. unfold comp_sign_or_mac_length. g_auto. Qed.
#[local] Hint Resolve comp_sign_or_mac_length_g : gd.
Lemma comp_mac_g : forall m n, gd badp (comp_mac m n).
Proof. intros. unfold comp_mac. g_auto. Qed.
#[local] Hint Resolve comp_mac_g : gd.
Lemma sign_cose_sign_1_g : forall a m b n, gd badp (sign_cose_sign_1 a m b n).
Proof. intros. unfold sign_cose_sign_1. g_auto. Qed.
#[local] Hint Resolve sign_cose_sign_1_g : gd.
Lemma verify_cose_sign_1_g : forall m a b c, gd badz (verify_cose_sign_1 m a b c).
Proof. intros. unfold verify_cose_sign_1. g_auto. Qed.
#[local] Hint Resolve verify_cose_sign_1_g : gd.
Lemma comp_sign_or_mac_g : forall a m b n, gd badp (comp_sign_or_mac a m b n).
Proof. intros. unfold comp_sign_or_mac. g_auto. Qed.
#[local] Hint Resolve comp_sign_or_mac_g : gd.
Lemma verify_sign_or_mac_g : forall m a b c, gd badz (verify_sign_or_mac m a b c).
Proof. intros. unfold verify_sign_or_mac. g_auto. Qed.
#[local] Hint Resolve verify_sign_or_mac_g : gd.
Lemma hash_into_th_g : forall n i, gd badp (hash_into_th n i).
Proof. intros. unfold hash_into_th. g_auto. Qed.
#[local] Hint Resolve hash_into_th_g : gd.
Lemma kdf_g : forall x len l cx k n, gd never cx -> gd never k -> gd badp (kdf x len l cx k n).
Proof. intros x len l cx k n H1 H2. unfold kdf. g_auto. Qed.
#[local] Hint Resolve kdf_g : gd.
Lemma gen_dh_keys_g : gd badz (gen_dh_keys).
Proof. unfold gen_dh_keys. g_auto. Qed.
#[local] Hint Resolve gen_dh_keys_g : gd.
Lemma comp_dh_secret_g : gd badz (comp_dh_secret).
Proof. unfold comp_dh_secret. g_auto. Qed.
#[local] Hint Resolve comp_dh_secret_g : gd.
Lemma comp_th_2_g : gd badz (comp_th_2).
Proof. unfold comp_th_2. g_auto. Qed.
#[local] Hint Resolve comp_th_2_g : gd.
Lemma comp_prk_2e_g : gd badz (comp_prk_2e).
Proof. unfold comp_prk_2e. g_auto. Qed.
#[local] Hint Resolve comp_prk_2e_g : gd.
Lemma comp_salt_3e2m_g : forall n, gd badp (comp_salt_3e2m n).
Proof. intros. unfold comp_salt_3e2m. g_auto. Qed.
#[local] Hint Resolve comp_salt_3e2m_g : gd.
Lemma agree_eph_g : forall p n, gd badp (agree_eph p n).
Proof. intros. unfold agree_eph. g_auto. Qed.
#[local] Hint Resolve agree_eph_g : gd.
Lemma agree_static_g : forall p n, gd badp (agree_static p n).
Proof. intros. unfold agree_static. g_auto. Qed.
#[local] Hint Resolve agree_static_g : gd.
Lemma comp_grx_g : forall a b n, gd badp (comp_grx a b n).
Proof. intros. unfold comp_grx. g_auto. Qed.
#[local] Hint Resolve comp_grx_g : gd.
Lemma prk_static_g : forall s g n, (forall k, gd badp (s k)) -> (forall k, gd badp (g k)) -> gd badz (prk_static s g n).
Proof. intros s g n H1 H2. unfold prk_static. g_auto. Qed.
#[local] Hint Resolve prk_static_g : gd.
Lemma comp_prk_3e2m_g : forall a b, gd badz (comp_prk_3e2m a b).
Proof. intros. unfold comp_prk_3e2m. g_auto. Qed.
#[local] Hint Resolve comp_prk_3e2m_g : gd.
Lemma comp_plaintext_len_g : forall m n, gd never (comp_plaintext_len m n).
Proof. intros. unfold comp_plaintext_len. g_auto. Qed.
#[local] Hint Resolve comp_plaintext_len_g : gd.
Lemma fill_plaintext_g : forall a b c n, gd never (fill_plaintext a b c n).
Proof. intros. unfold fill_plaintext. g_auto. Qed.
#[local] Hint Resolve fill_plaintext_g : gd.
Lemma prepare_plaintext_2_g : forall a b n, gd never (prepare_plaintext_2 a b n).
Proof. intros. unfold prepare_plaintext_2. g_auto. Qed.
#[local] Hint Resolve prepare_plaintext_2_g : gd.
Lemma comp_keystream_g : forall a n, gd badp (comp_keystream a n).
Proof. intros. unfold comp_keystream. g_auto. Qed.
#[local] Hint Resolve comp_keystream_g : gd.
Lemma prepare_message_2_g : forall a n, gd badp (prepare_message_2 a n).
Proof. intros. unfold prepare_message_2. g_auto. Qed.
#[local] Hint Resolve prepare_message_2_g : gd.
Lemma comp_ciphertext_2_len_g : forall m, gd never (comp_ciphertext_2_len m).
Proof. intros. unfold comp_ciphertext_2_len. g_auto. Qed.
#[local] Hint Resolve comp_ciphertext_2_len_g : gd.
Lemma parse_msg_2_g : forall m n, gd never (parse_msg_2 m n).
Proof. intros. unfold parse_msg_2. g_auto. Qed.
#[local] Hint Resolve parse_msg_2_g : gd.
Lemma parse_id_cred_g : forall b i, gd never (parse_id_cred b i).
Proof. intros. unfold parse_id_cred. g_auto. Qed.
#[local] Hint Resolve parse_id_cred_g : gd.
Lemma store_tokens_g : forall l, gd never (store_tokens l).
Proof. intros. unfold store_tokens. g_auto. Qed.
#[local] Hint Resolve store_tokens_g : gd.
Lemma store_peer_cid_g : forall l, gd never (store_peer_cid l).
Proof. intros. unfold store_peer_cid. g_auto. Qed.
#[local] Hint Resolve store_peer_cid_g : gd.
Lemma parse_plaintext_2_g : forall p, gd never (parse_plaintext_2 p).
Proof. intros. unfold parse_plaintext_2. g_auto. Qed.
#[local] Hint Resolve parse_plaintext_2_g : gd.
Lemma comp_th_next_g : forall a b s m p, gd badz (comp_th_next a b s m p).
Proof. intros. unfold comp_th_next. g_auto. Qed.
#[local] Hint Resolve comp_th_next_g : gd.
Lemma comp_th_3_g : forall m p, gd badz (comp_th_3 m p).
Proof. intros. apply comp_th_next_g. Qed.
#[local] Hint Resolve comp_th_3_g : gd.
Lemma comp_th_4_g : forall m p, gd badz (comp_th_4 m p).
Proof. intros. apply comp_th_next_g. Qed.
#[local] Hint Resolve comp_th_4_g : gd.
Lemma comp_salt_4e3m_g : forall n, gd badp (comp_salt_4e3m n).
Proof. intros. unfold comp_salt_4e3m. g_auto. Qed.
#[local] Hint Resolve comp_salt_4e3m_g : gd.
Lemma comp_giy_g : forall a b n, gd badp (comp_giy a b n).
Proof. intros. unfold comp_giy. g_auto. Qed.
#[local] Hint Resolve comp_giy_g : gd.
Lemma comp_prk_4e3m_g : forall a b, gd badz (comp_prk_4e3m a b).
Proof. intros. unfold comp_prk_4e3m. g_auto. Qed.
#[local] Hint Resolve comp_prk_4e3m_g : gd.
Lemma prepare_plaintext_3_g : forall a b n, gd never (prepare_plaintext_3 a b n).
Proof. intros. unfold prepare_plaintext_3. g_auto. Qed.
#[local] Hint Resolve prepare_plaintext_3_g : gd.
Lemma expand_part_g : forall a b n, gd badp (expand_part a b n).
Proof. intros. unfold expand_part. g_auto. Qed.
#[local] Hint Resolve expand_part_g : gd.
Lemma key_iv_aad_g : forall a b n, gd badp (key_iv_aad a b n).
Proof. intros. unfold key_iv_aad. g_auto. Qed.
#[local] Hint Resolve key_iv_aad_g : gd.
Lemma comp_key_iv_aad_3_g : forall a b n, gd badp (comp_key_iv_aad_3 a b n).
Proof. intros. unfold comp_key_iv_aad_3. g_auto. Qed.
#[local] Hint Resolve comp_key_iv_aad_3_g : gd.
Lemma aead_encrypt_g : forall a b c d n, gd badp (aead_encrypt a b c d n).
Proof. intros. unfold aead_encrypt. g_auto. Qed.
#[local] Hint Resolve aead_encrypt_g : gd.
Lemma aead_decrypt_g : forall a b c d n, gd badp (aead_decrypt a b c d n).
Proof. intros. unfold aead_decrypt. g_auto. Qed.
#[local] Hint Resolve aead_decrypt_g : gd.
Lemma comp_ciphertext_g : forall a b c d n, gd badp (comp_ciphertext a b c d n).
Proof. intros. unfold comp_ciphertext. g_auto. Qed.
#[local] Hint Resolve comp_ciphertext_g : gd.
Lemma decrypt_ciphertext_3_g : forall a b c d n, gd badp (decrypt_ciphertext_3 a b c d n).
Proof. intros. unfold decrypt_ciphertext_3. g_auto. Qed.
#[local] Hint Resolve decrypt_ciphertext_3_g : gd.
Lemma gen_msg_3_g : forall a n, gd never (gen_msg_3 a n).
Proof. intros. unfold gen_msg_3. g_auto. Qed.
#[local] Hint Resolve gen_msg_3_g : gd.
Lemma parse_plaintext_3_g : forall p, gd never (parse_plaintext_3 p).
Proof. intros. unfold parse_plaintext_3. g_auto. Qed.
#[local] Hint Resolve parse_plaintext_3_g : gd.
Lemma prepare_plaintext_4_g : forall n, gd never (prepare_plaintext_4 n).
Proof. intros. unfold prepare_plaintext_4. g_auto. Qed.
#[local] Hint Resolve prepare_plaintext_4_g : gd.
Lemma compute_key_iv_aad_4_g : forall a b n, gd badp (compute_key_iv_aad_4 a b n).
Proof. intros. unfold compute_key_iv_aad_4. g_auto. Qed.
#[local] Hint Resolve compute_key_iv_aad_4_g : gd.
Lemma kdf_into_prk_g : forall a b cx, gd never cx -> gd badz (kdf_into_prk a b cx).
Proof. intros a b cx H1. unfold kdf_into_prk. g_auto. Qed.
#[local] Hint Resolve kdf_into_prk_g : gd.
Lemma compute_prk_out_g : gd badz (compute_prk_out).
Proof. unfold compute_prk_out. g_auto. Qed.
#[local] Hint Resolve compute_prk_out_g : gd.
Lemma compute_new_prk_out_g : forall e, gd badz (compute_new_prk_out e).
Proof. intros. unfold compute_new_prk_out. g_auto. Qed.
#[local] Hint Resolve compute_new_prk_out_g : gd.
Lemma compute_prk_exporter_g : forall n, gd badp (compute_prk_exporter n).
Proof. intros. unfold compute_prk_exporter. g_auto. Qed.
#[local] Hint Resolve compute_prk_exporter_g : gd.
Lemma export_prk_exporter_g : forall nn l n, gd badp (export_prk_exporter nn l n).
Proof. intros. unfold export_prk_exporter. g_auto. Qed.
#[local] Hint Resolve export_prk_exporter_g : gd.
Lemma ead_compose_g : gd badb (ead_compose).
Proof. unfold ead_compose. g_auto. Qed.
#[local] Hint Resolve ead_compose_g : gd.
Lemma ead_process_g : gd badb (ead_process).
Proof. unfold ead_process. g_auto. Qed.
#[local] Hint Resolve ead_process_g : gd.
Lemma message_1_compose_g : forall nn n, gd badp (message_1_compose nn n).
Proof. intros. unfold message_1_compose, enter. g_auto. Qed.
#[local] Hint Resolve message_1_compose_g : gd.
Lemma message_1_process_g : forall nn n, gd badz (message_1_process nn n).
Proof. intros. unfold message_1_process, enter. g_auto. Qed.
#[local] Hint Resolve message_1_process_g : gd.
Lemma message_2_compose_g : forall nn n, gd badp (message_2_compose nn n).
Proof. intros. unfold message_2_compose, enter. g_auto. Qed.
#[local] Hint Resolve message_2_compose_g : gd.
Lemma message_2_process_g : forall nn n, gd badz (message_2_process nn n).
Proof. intros. unfold message_2_process, enter. g_auto. Qed.
#[local] Hint Resolve message_2_process_g : gd.
Lemma message_3_compose_g : forall nn n, gd badp (message_3_compose nn n).
Proof. intros. unfold message_3_compose, enter. g_auto. Qed.
#[local] Hint Resolve message_3_compose_g : gd.
Lemma message_3_process_g : forall nn n, gd badz (message_3_process nn n).
Proof. intros. unfold message_3_process, enter. g_auto. Qed.
#[local] Hint Resolve message_3_process_g : gd.
Lemma message_4_compose_g : forall nn n, gd badp (message_4_compose nn n).
Proof. intros. unfold message_4_compose, enter. g_auto. Qed.
#[local] Hint Resolve message_4_compose_g : gd.
Lemma message_4_process_g : forall nn n, gd badz (message_4_process nn n).
Proof. intros. unfold message_4_process, enter. g_auto. Qed.
#[local] Hint Resolve message_4_process_g : gd.
Lemma export_key_update_g : forall nn e, gd badz (export_key_update nn e).
Proof. intros. unfold export_key_update. g_auto. Qed.
#[local] Hint Resolve export_key_update_g : gd.
Lemma export_oscore_session_g : forall nn a b c d, gd badp (export_oscore_session nn a b c d).
Proof. intros. unfold export_oscore_session. g_auto. Qed.
#[local] Hint Resolve export_oscore_session_g : gd.
End Replies.

(** ** Every call *)
Section Api.
Context {E : env}.
Lemma api_g : forall a, gd badp (do_api a).
Proof.
  intros a. destruct a; unfold do_api, cfg, msg_out, no_out; try (apply gd_never; g_auto; fail).
  all: try (eapply gd_bind; [first [apply message_1_compose_g|apply message_2_compose_g|apply message_3_compose_g|apply message_4_compose_g
    |apply message_1_process_g|apply message_2_process_g|apply message_3_process_g|apply message_4_process_g
    |apply export_prk_exporter_g|apply export_key_update_g|apply export_oscore_session_g]|intro; g_auto|f_open]).
Qed.
Lemma success_granted : forall a w o w', do_api a w = Ret (OK, o) w' ->
  exists e, w_tr w' = e ++ w_tr w /\ Forall granted e.
Proof. intros a w o w' R. destruct (api_g a _ _ _ R) as [B|X]; [now destruct B|exact X]. Qed.
End Api.
