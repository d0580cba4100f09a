(** Buffer bounds of the compose calls, truncated messages, and what a message call may do to
    the ephemeral key. *)
From Verif Require Import Monad Api Common Msg1 Msg2 Msg3 Msg4 Exporter History Spec Rfc Wire Uses Received Policy Safety
  Facts Logic Sym Pres CborProofs CodecProofs RoundTrip WireProofs ConfigProofs HistoryProofs SessionProofs SafeProofs SafeHistory.

(** ** Kinds of fault *)
Definition nu (U : ub -> Prop) {A} (m : M A) : Prop := forall w, sat U m w (fun _ _ => True).
Section Nu.
Context {E : env} (U : ub -> Prop).
Lemma ret_nu : forall A (a : A), nu U (ret a). Proof. intros A a w. now apply sat_ret. Qed.
Lemma bind_nu : forall A B (m : M A) (k : A -> M B), nu U m -> (forall a, nu U (k a)) -> nu U (bind m k).
Proof. intros A B m k Hm Hk w. apply sat_bind. eapply sat_conseq; [apply Hm|]. intros a w1 _. apply Hk. Qed.
Lemma check_nu : forall b u, U u -> nu U (check b u). Proof. intros b u H w. apply sat_check; auto. Qed.
Lemma need_nu : forall A (o : option A) u, U u -> nu U (need o u). Proof. intros A o u H w. apply sat_need; auto. Qed.
Lemma fault_nu : forall A u, U u -> nu U (@fault A u). Proof. intros A u H w. now apply sat_fault. Qed.
Lemma modify_nu : forall f, nu U (modify f). Proof. intros f w. now apply sat_modify. Qed.
Lemma emit_nu : forall f, nu U (emit f). Proof. intros f w. now apply sat_emit. Qed.
Lemma getc_nu : nu U getc. Proof. intros w. now apply sat_getc. Qed.
Lemma trace_nu : nu U trace. Proof. intros w. now apply sat_trace. Qed.
End Nu.
Create HintDb nu discriminated.
#[export] Hint Constants Opaque : nu.
#[export] Hint Transparent bytes M : nu.
#[export] Hint Resolve ret_nu modify_nu emit_nu getc_nu trace_nu : nu.
(** [cl] closes [U u]. *)
Ltac nu_step cl :=
  lazymatch goal with
  | |- nu _ (bind _ _) => apply bind_nu; [|intro]
  | |- nu _ (if ?b then _ else _) => destruct b
  | |- nu _ (match ?x with _ => _ end) => destruct x
  | |- nu _ (let _ := _ in _) => cbv zeta
  | |- nu _ ((fun _ => _) _) => cbv beta
  | |- nu _ (check _ _) => apply check_nu; solve [cl]
  | |- nu _ (need _ _) => apply need_nu; solve [cl]
  | |- nu _ (fault _) => apply fault_nu; solve [cl]
  | |- nu _ _ => solve [auto 2 with nu nocore]
  end.
Ltac nu_open := progress unfold alloc, free, rd, rd_ptr, out_ok, call_import, call_destroy, call_mkpair, call_agree, call_sign,
  call_verify, call_extract, call_expand, call_encrypt, call_decrypt, call_hash, call_fetch, call_cverify, call_compose,
  call_process, get_suite, get_th, get_prk, get_dh_pub, get_dh_priv, get_dh_peer, get_dh_secret,
  put_th, put_prk, put_dh_pub, put_dh_priv, put_dh_peer, put_dh_secret, wr.
Ltac nu_all cl := repeat first [nu_step cl | nu_open].

Section Kinds.
Context {E : env} (U : ub -> Prop).
Hypothesis HU : forall u, u <> UbMsg3Write -> u <> UbKidWrite -> u <> UbEadRead -> U u.
Ltac go := nu_all ltac:(apply HU; discriminate).
Lemma alloc_nu : forall b n, nu U (alloc b n). Proof. intros. go. Qed.
Lemma free_nu : forall b, nu U (free b). Proof. intros. go. Qed.
Lemma rd_nu : forall a b c, nu U (rd a b c). Proof. intros. go. Qed.
Lemma import_nu : forall a b, nu U (call_import a b). Proof. intros. go. Qed.
Lemma destroy_nu : forall a, nu U (call_destroy a). Proof. intros. go. Qed.
Lemma mkpair_nu : forall a b c, nu U (call_mkpair a b c). Proof. intros. go. Qed.
Lemma agree_nu : forall a b c, nu U (call_agree a b c). Proof. intros. go. Qed.
Lemma sign_nu : forall a b c, nu U (call_sign a b c). Proof. intros. go. Qed.
Lemma extract_nu : forall a b c, nu U (call_extract a b c). Proof. intros. go. Qed.
Lemma expand_nu : forall a b c, nu U (call_expand a b c). Proof. intros. go. Qed.
Lemma encrypt_nu : forall a b c d e, nu U (call_encrypt a b c d e). Proof. intros. go. Qed.
Lemma hash_nu : forall a b, nu U (call_hash a b). Proof. intros. go. Qed.
Lemma fetch_nu : nu U call_fetch. Proof. go. Qed.
Lemma compose_nu : forall a b c, nu U (call_compose a b c). Proof. intros. go. Qed.
Lemma suite_nu : nu U get_suite. Proof. go. Qed.
Lemma th_nu : nu U get_th. Proof. go. Qed.
Lemma prk_nu : nu U get_prk. Proof. go. Qed.
Lemma dh_pub_nu : nu U get_dh_pub. Proof. go. Qed.
Lemma dh_priv_nu : nu U get_dh_priv. Proof. go. Qed.
Lemma dh_peer_nu : nu U get_dh_peer. Proof. go. Qed.
Lemma put_th_nu : forall a, nu U (put_th a). Proof. intros. go. Qed.
Lemma put_prk_nu : forall a, nu U (put_prk a). Proof. intros. go. Qed.
Hint Resolve alloc_nu free_nu rd_nu import_nu destroy_nu mkpair_nu agree_nu sign_nu extract_nu expand_nu encrypt_nu hash_nu
  fetch_nu compose_nu suite_nu th_nu prk_nu dh_pub_nu dh_priv_nu dh_peer_nu put_th_nu put_prk_nu : nu.
Lemma frees_nu : forall l, nu U (frees l). Proof. induction l; cbn [frees]; go. Qed.
Hint Resolve frees_nu : nu.
Lemma fail_nu : forall l r, nu U (fail l r). Proof. intros. unfold fail. go. Qed.
Lemma failp_nu : forall l r, nu U (failp l r). Proof. intros. unfold failp. go. Qed.
Lemma hash_into_th_nu : forall a b, nu U (hash_into_th a b). Proof. intros. unfold hash_into_th. go. Qed.
Lemma expand_part_nu : forall a b c, nu U (expand_part a b c). Proof. intros. unfold expand_part. go. Qed.
Hint Resolve fail_nu failp_nu hash_into_th_nu expand_part_nu : nu.
Lemma key_iv_aad_nu : forall a b c, nu U (key_iv_aad a b c). Proof. intros. unfold key_iv_aad. go. Qed.
Hint Resolve key_iv_aad_nu : nu.
Lemma key_iv_aad_3_nu : forall a b c, nu U (comp_key_iv_aad_3 a b c). Proof. intros. unfold comp_key_iv_aad_3. go. Qed.
Lemma key_iv_aad_4_nu : forall a b c, nu U (compute_key_iv_aad_4 a b c). Proof. intros. unfold compute_key_iv_aad_4. go. Qed.
Lemma enter_nu : forall a b, nu U (enter a b). Proof. intros. unfold enter. go. Qed.
Lemma aead_encrypt_nu : forall a b c d e, nu U (aead_encrypt a b c d e). Proof. intros. unfold aead_encrypt. go. Qed.
Hint Resolve aead_encrypt_nu : nu.
Lemma comp_ciphertext_nu : forall a b c d e, nu U (comp_ciphertext a b c d e). Proof. intros. unfold comp_ciphertext. go. Qed.
Lemma ead_compose_nu : nu U ead_compose. Proof. unfold ead_compose. go. Qed.
Lemma comp_th_next_nu : forall a b c d e, nu U (comp_th_next a b c d e). Proof. intros. unfold comp_th_next. go. Qed.
Hypothesis HE : U UbEadRead.
Lemma rd_tok_nu : forall a b, nu U (rd_tok a b). Proof. intros. unfold rd_tok. nu_all ltac:(first [exact HE|apply HU; discriminate]). Qed.
Hint Resolve rd_tok_nu : nu.
Lemma read_toks_nu : forall p l, nu U (read_toks p l). Proof. induction l; cbn [read_toks]; go. Qed.
Hint Resolve read_toks_nu : nu.
Lemma encode_tokens_nu : forall p n l, nu U (encode_tokens p n l). Proof. intros. unfold encode_tokens. go. Qed.
Lemma comp_id_cred_len_nu : forall cr, nu U (comp_id_cred_len cr). Proof. intros. unfold comp_id_cred_len. go. Qed.
Lemma comp_cred_len_nu : forall cr, nu U (comp_cred_len cr). Proof. intros. unfold comp_cred_len. go. Qed.
Lemma kid_compact_nu : forall cr, nu U (kid_compact_encoding cr). Proof. intros. unfold kid_compact_encoding. go. Qed.
Lemma id_cred_of_nu : forall cr, nu U (id_cred_of cr). Proof. intros. unfold id_cred_of. go. Qed.
Lemma cred_bytes_nu : forall cr n, nu U (cred_bytes cr n). Proof. intros. unfold cred_bytes. go. Qed.
Hint Resolve encode_tokens_nu comp_id_cred_len_nu comp_cred_len_nu kid_compact_nu id_cred_of_nu cred_bytes_nu : nu.
Lemma comp_mac_context_length_nu : forall cr, nu U (comp_mac_context_length cr).
Proof. intros. unfold comp_mac_context_length. go. Qed.
Lemma comp_mac_context_nu : forall cr n, nu U (comp_mac_context cr n). Proof. intros. unfold comp_mac_context. go. Qed.
Lemma comp_mac_length_nu : nu U comp_mac_length. Proof. unfold comp_mac_length. go. Qed.
Lemma comp_sign_or_mac_length_nu : nu U comp_sign_or_mac_length. Proof. unfold comp_sign_or_mac_length. go. Qed.
Lemma kdf_nu : forall x len l cx k n, nu U cx -> nu U k -> nu U (kdf x len l cx k n).
Proof. intros x len l cx k n H1 H2. unfold kdf. go. Qed.
Hint Resolve kdf_nu : nu.
Lemma comp_mac_nu : forall m n, nu U (comp_mac m n). Proof. intros. unfold comp_mac. go. Qed.
Lemma sign_cose_sign_1_nu : forall cr m mac n, nu U (sign_cose_sign_1 cr m mac n). Proof. intros. unfold sign_cose_sign_1. go. Qed.
Hint Resolve sign_cose_sign_1_nu : nu.
Lemma comp_sign_or_mac_nu : forall cr m mac n, nu U (comp_sign_or_mac cr m mac n). Proof. intros. unfold comp_sign_or_mac. go. Qed.
Lemma comp_salt_4e3m_nu : forall n, nu U (comp_salt_4e3m n). Proof. intros. unfold comp_salt_4e3m. go. Qed.
Lemma agree_static_nu : forall p n, nu U (agree_static p n). Proof. intros. unfold agree_static. go. Qed.
Lemma agree_eph_nu : forall p n, nu U (agree_eph p n). Proof. intros. unfold agree_eph. go. Qed.
Hint Resolve agree_static_nu agree_eph_nu comp_salt_4e3m_nu : nu.
Lemma comp_prk_4e3m_nu : forall cr pub, nu U (comp_prk_4e3m cr pub). Proof. intros. unfold comp_prk_4e3m, prk_static, comp_giy. go. Qed.
Lemma comp_plaintext_len_nu : forall m n, nu U (comp_plaintext_len m n). Proof. intros. unfold comp_plaintext_len. go. Qed.
Lemma prepare_plaintext_3_nu : forall m s n, nu U (prepare_plaintext_3 m s n). Proof. intros. unfold prepare_plaintext_3, fill_plaintext. go. Qed.
End Kinds.

(** ** C12: compose calls and the caller's buffer *)
Section Compose.
Context {E : env}.
Definition fits_in (n : Z) (x : Z * bytes) : Prop := fst x <> OK /\ snd x = [] \/ fst x = OK /\ 0 < zlen (snd x) <= n.
Definition bo (n : Z) (m : M (Z * bytes)) : Prop := forall w, sat Any m w (fun x _ => fits_in n x).
Lemma any_nu : forall A (m : M A), nu Any m.
Proof. intros A m w. unfold sat. destruct (m w); exact I. Qed.
Lemma bind_bo : forall n A (m : M A) k, (forall a, bo n (k a)) -> bo n (bind m k).
Proof. intros n A m k H w. apply sat_bind. eapply sat_conseq; [apply any_nu|]. intros a w1 _. apply H. Qed.
Lemma bind_bo' : forall n A (m : M A) k (P : A -> Prop), (forall w, sat Any m w (fun a _ => P a)) -> (forall a, P a -> bo n (k a)) -> bo n (bind m k).
Proof. intros n A m k P H0 H w. apply sat_bind. eapply sat_conseq; [apply H0|]. intros a w1 X. now apply H. Qed.
Lemma nil_bo : forall n r, r <> OK -> bo n (ret (r, [])). Proof. intros n r H w. apply sat_ret. now left. Qed.
Lemma fail_bo : forall n l r, r <> OK -> bo n (fail l r). Proof. intros n l r H. unfold fail. apply bind_bo. intros _. now apply nil_bo. Qed.
Lemma fits_le : forall n b x, fits n b = Some x -> x = b /\ zlen b <= n.
Proof. intros n b x. unfold fits. destruct (_ <=? _) eqn:X; intros [= <-]. split; [reflexivity|lia]. Qed.
Ltac bo_step :=
  lazymatch goal with
  | |- bo _ (ret (_, [])) => apply nil_bo; first [discriminate|lia]
  | |- bo _ (fail _ _) => apply fail_bo; first [discriminate|lia]
  | |- bo _ (if ?b then _ else _) => let X := fresh "G" in destruct b eqn:X
  | |- bo _ (match ?x with _ => _ end) => let X := fresh "G" in destruct x eqn:X
  | |- bo _ (let _ := _ in _) => cbv zeta
  | |- bo _ (bind (match enc_message_1 _ _ _ _ _ with _ => _ end) _) => fail
  | |- bo _ (bind (prepare_message_2 _ _) _) => fail
  | |- bo _ (bind (gen_msg_3 _ _) _) => fail
  | |- bo _ (bind _ _) => apply bind_bo; intro
  end.
Lemma enc_head_pos : forall m v, 0 < zlen (enc_head m v).
Proof.
  intros. unfold enc_head. repeat match goal with |- context [if ?b then _ else _] => destruct b end; rewrite zlen_cons;
  try (pose proof (zlen_nonneg Z []); lia);
  match goal with |- context [zlen ?l] => pose proof (zlen_nonneg _ l); lia end.
Qed.
Lemma enc_bstr_pos : forall b, 0 < zlen (enc_bstr b).
Proof. intro b. unfold enc_bstr. rewrite zlen_app. pose proof (zlen_nonneg _ b). pose proof (enc_head_pos 2 (zlen b)). lia. Qed.
Lemma enc_m1_pos : forall m su g ci x, enc_message_1 m su g ci None = Some x -> 0 < zlen x.
Proof.
  intros m su g ci x. unfold enc_message_1. destruct (enc_suites su) as [s|]; [|discriminate]. destruct (enc_cidv ci) as [c|]; [|discriminate].
  intros [= <-]. rewrite !zlen_app. pose proof (zlen_nonneg _ s). pose proof (zlen_nonneg _ c). pose proof (enc_bstr_pos g).
  unfold enc_int. destruct (m <? 0); match goal with |- context [enc_head ?a ?b] => pose proof (enc_head_pos a b); lia end.
Qed.
Ltac bos := repeat bo_step.
Lemma m1c_bo : forall nn n, bo n (message_1_compose nn n).
Proof.
  intros. unfold message_1_compose. bos.
  match goal with |- bo _ (bind (match enc_message_1 ?a ?b ?c ?d None with _ => _ end) _) => destruct (enc_message_1 a b c d None) as [pre|] eqn:P end.
  - apply bind_bo' with (P := fun o => match o with Some m => 0 < zlen m <= n | None => True end).
    + intro w. apply enc_m1_pos in P. destruct (zlen _ =? 0).
      * apply sat_ret. destruct (fits n pre) as [m|] eqn:F; [|exact I]. apply fits_le in F as [-> F]. lia.
      * apply sat_bind. eapply sat_conseq; [apply any_nu|]. intros e w1 _. apply sat_ret. destruct e as [eb|]; [|exact I].
        destruct (fits n _) as [m|] eqn:F; [|exact I]. apply fits_le in F as [-> F]. rewrite zlen_app in *. pose proof (zlen_nonneg _ eb). lia.
    + intros [msg|] F; bos. intro w. apply sat_ret. right. cbn. auto.
  - apply bind_bo' with (P := fun o => o = None); [intro w; now apply sat_ret|]. intros o ->. bos.
Qed.
Ltac enc_out := match goal with H : fits _ (enc_bstr ?l) = Some _ |- _ =>
  apply fits_le in H as [-> H]; intro; apply sat_ret; right; cbn; pose proof (enc_bstr_pos l); auto end.
Lemma prep2_bo : forall x n, bo n (prepare_message_2 x n).
Proof. intros. unfold prepare_message_2. bos. enc_out. Qed.
Lemma gen3_bo : forall x n, bo n (gen_msg_3 x n).
Proof.
  intros. unfold gen_msg_3. destruct (_ || _); [apply nil_bo; discriminate|]. destruct (fits _ _) as [m|] eqn:F; [|apply nil_bo; discriminate].
  apply fits_le in F as [-> F]. apply bind_bo' with (P := fun _ => zlen (enc_bstr x) <= n).
  - intro w. apply sy_check. intro. lia.
  - intros _ L w. apply sat_ret. right. cbn. pose proof (enc_bstr_pos x). auto.
Qed.
Lemma m2c_bo : forall nn n, bo n (message_2_compose nn n).
Proof.
  intros. unfold message_2_compose. bos.
  apply bind_bo' with (P := fits_in n).
  - apply prep2_bo.
  - intros [r x] [F|F]; cbn [fst snd] in F; bos; intro w; apply sat_ret; [exfalso; apply (proj1 F); lia|right; split; [reflexivity|exact (proj2 F)]].
Qed.
Lemma m3c_bo : forall nn n, bo n (message_3_compose nn n).
Proof.
  intros. unfold message_3_compose. bos.
  apply bind_bo' with (P := fits_in n); [apply gen3_bo|].
  intros [r x] [F|F]; cbn [fst snd] in F; bos; intro w; apply sat_ret; [exfalso; apply (proj1 F); lia|right; split; [reflexivity|exact (proj2 F)]].
Qed.
Lemma gen4_fits : forall x n, fits_in n (gen_msg_4 x n).
Proof.
  intros. unfold gen_msg_4. destruct (_ || _); [left; split; [discriminate|reflexivity]|]. destruct (fits _ _) as [m|] eqn:F; [|left; split; [discriminate|reflexivity]].
  apply fits_le in F as [-> F]. right. cbn. pose proof (enc_bstr_pos x). auto.
Qed.
Lemma m4c_bo : forall nn n, bo n (message_4_compose nn n).
Proof.
  intros. unfold message_4_compose. bos.
  match goal with H : gen_msg_4 ?x ?y = _ |- _ => pose proof (gen4_fits x y) as F; rewrite H in F end.
  destruct F as [F|F]; cbn [fst snd] in F; intro w; apply sat_ret; [exfalso; apply (proj1 F); lia|right; split; [reflexivity|exact (proj2 F)]].
Qed.
(** Room given to a compose call. *)
Lemma compose_bounds : forall a w r b w', do_api a w = Ret (r, OBytes b) w' ->
  match a with
  | AM1Compose _ n | AM2Compose _ n | AM3Compose _ n | AM4Compose _ n =>
    r <> OK /\ b = [] \/ r = OK /\ 0 < zlen b <= n
  | _ => True
  end.
Proof.
  intros a w r b w' H.
  destruct a; try exact I; cbn [do_api] in H; unfold msg_out in H; apply bind_inv in H as ([r0 b0] & w1 & H & R); inversion R; subst.
  - exact (sat_run _ _ _ _ _ _ _ (m1c_bo _ _ _) H).
  - exact (sat_run _ _ _ _ _ _ _ (m2c_bo _ _ _) H).
  - exact (sat_run _ _ _ _ _ _ _ (m3c_bo _ _ _) H).
  - exact (sat_run _ _ _ _ _ _ _ (m4c_bo _ _ _) H).
Qed.

(** Message 3: the two sizes side by side. *)
Variable n : Z.
Hypothesis Hn : 0 < n.
Definition rr (m1 m2 : M (Z * bytes)) : Prop := forall w,
  (m1 w = Ub UbMsg3Write -> m2 w = Ub UbFree \/ exists m w', m2 w = Ret (OK, m) w' /\ zlen m = n + 1) /\
  (forall m w', m2 w = Ret (OK, m) w' -> zlen m = n + 1 -> m1 w = Ub UbMsg3Write).
Definition not3 (u : ub) : Prop := u <> UbMsg3Write.
Lemma bind_rr : forall A (m : M A) k1 k2, nu not3 m -> (forall a, rr (k1 a) (k2 a)) -> rr (bind m k1) (bind m k2).
Proof.
  intros A m k1 k2 Hm Hk w. unfold bind. specialize (Hm w). unfold sat in Hm. destruct (m w) as [a w1|u]; [apply Hk|].
  split; [intros [= ->]; now elim Hm|]. intros ? ? ?. discriminate.
Qed.
Lemma nil_rr : forall r, rr (ret (r, [])) (ret (r, [])).
Proof. intros r w. unfold ret. split; [discriminate|]. intros m w' X L. inversion X; subst. unfold zlen in L. cbn in L. lia. Qed.
Lemma fail_rr : forall l r, rr (fail l r) (fail l r).
Proof. intros. unfold fail. apply bind_rr; [|intro; apply nil_rr]. apply frees_nu. intros u X _ _. exact X. Qed.
Ltac nu3 := first [ apply alloc_nu | apply free_nu | apply frees_nu | apply fetch_nu | apply suite_nu | apply ead_compose_nu
  | apply key_iv_aad_3_nu | apply comp_prk_4e3m_nu | apply comp_mac_context_length_nu | apply comp_mac_context_nu
  | apply comp_mac_length_nu | apply comp_mac_nu | apply comp_sign_or_mac_length_nu | apply comp_sign_or_mac_nu
  | apply comp_plaintext_len_nu | apply prepare_plaintext_3_nu | apply comp_ciphertext_nu | apply comp_th_next_nu | apply enter_nu
  | apply getc_nu | apply modify_nu ]; try (intros u X _ _; exact X); try discriminate.
Lemma gen3_rr : forall ct k, rr (bind (gen_msg_3 ct n) (fun x => let '(r, msg) := x in
    free BCiphertext ;;; if negb (r =? OK) then ret (E_CBOR, []) else modify k ;;; ret (OK, msg)))
  (bind (gen_msg_3 ct (n + 1)) (fun x => let '(r, msg) := x in
    free BCiphertext ;;; if negb (r =? OK) then ret (E_CBOR, []) else modify k ;;; ret (OK, msg))).
Proof.
  intros ct k w. unfold gen_msg_3. replace (n =? 0) with false by lia. replace (n + 1 =? 0) with false by lia.
  assert (FR : free BCiphertext w = Ub UbFree \/ exists w', free BCiphertext w = Ret tt w').
  { unfold free, bind, trace, check, fault, ret, emit. destruct (_ <? _); eauto. }
  destruct (zlen ct =? 0); cbn [orb].
  { unfold bind, ret. destruct FR as [X|[w1 X]]; rewrite X; (split; [intro Y; discriminate Y|intros m w' Y L; discriminate Y]). }
  unfold fits. destruct (zlen (enc_bstr ct) <=? n + 1) eqn:A.
  - replace (zlen (enc_bstr ct) <=? n + 1 + 1) with true by lia. rewrite A.
    destruct (zlen (enc_bstr ct) <=? n) eqn:B; unfold check, bind, ret, fault, modify; destruct FR as [X|[w1 X]]; rewrite X; cbn.
    + split; [intro Y; discriminate Y|intros m w' Y L; discriminate Y].
    + split; [intro Y; discriminate Y|]. intros m w' Y L. inversion Y; subst. lia.
    + split; auto.
    + split; [intros _|auto]. right. eexists. eexists. split; [reflexivity|]. lia.
  - destruct (zlen (enc_bstr ct) <=? n + 1 + 1) eqn:B; rewrite ?A; unfold check, bind, ret, fault; 
    destruct FR as [X|[w1 X]]; rewrite X; (split; [intro Y; discriminate Y|intros m w' Y L; discriminate Y]).
Qed.
Lemma message_3_rr : rr (message_3_compose true n) (message_3_compose true (n + 1)).
Proof.
  unfold message_3_compose. replace (n =? 0) with false by lia. replace (n + 1 =? 0) with false by lia. cbn [negb orb].
  repeat match goal with
    | |- rr (ret (_, [])) _ => apply nil_rr
    | |- rr (fail _ _) _ => apply fail_rr
    | |- rr (if ?b then _ else _) _ => destruct b
    | |- rr (match ?x with _ => _ end) _ => destruct x
    | |- rr (let _ := _ in _) _ => cbv zeta
    | |- rr (bind (gen_msg_3 _ _) _) _ => apply gen3_rr
    | |- rr (bind _ _) _ => apply bind_rr; [solve [nu3]|intro]
    end.
Qed.
Lemma message_3_one_byte : forall w, reachable w ->
  do_api (AM3Compose true n) w = Ub UbMsg3Write <->
  exists m w', do_api (AM3Compose true (n + 1)) w = Ret (OK, OBytes m) w' /\ zlen m = n + 1.
Proof.
  intros w Hw. destruct (message_3_rr w) as [A B]. pose proof (call_no_bad_free (AM3Compose true (n + 1)) w Hw) as NF.
  cbn [do_api] in *. unfold msg_out in *. unfold bind in *. split.
  - destruct (message_3_compose true n w) as [[? ?]|u]; [discriminate|]. intros [= ->].
    destruct (A eq_refl) as [X|(m & w' & X & L)]; rewrite X in *; [congruence|]. exists m, w'. auto.
  - intros (m & w' & X & L). destruct (message_3_compose true (n + 1) w) as [[r y] w1|] eqn:Y; [|discriminate].
    unfold ret in X. inversion X; subst. now rewrite (B _ _ eq_refl L).
Qed.
End Compose.

(** ** C13: one call from a carefully reached state *)
Section Careful.
Context {E : env}.
Hypothesis HL : limits.
Hypothesis HA : abides.
Lemma careful_reach : forall w, careful_world w -> reachable w.
Proof. intros w (w0 & l & rs & R & _ & H). exact (reachable_run _ _ _ _ R H). Qed.
Lemma runs_snoc : forall l a w rs w1 r w2, runs l w = Ret rs w1 -> do_api a w1 = Ret r w2 -> runs (l ++ [a]) w = Ret (rs ++ [(a, r)]) w2.
Proof.
  induction l as [|x l IH]; intros a w rs w1 r w2 H D.
  - apply runs_nil in H as [-> <-]. cbn [app runs]. unfold bind. now rewrite D.
  - apply runs_cons in H as (r1 & w3 & rs1 & X & Y & ->). cbn [app runs]. unfold bind at 1. rewrite X. unfold bind.
    now rewrite (IH _ _ _ _ _ _ Y D).
Qed.
Lemma careful_inv : forall w, careful_world w -> inv (w_ctx w).
Proof.
  intros w (w0 & l & rs & R & [_ C] & H). apply runs_cons in H as (r & w1 & rs' & X & Y & _).
  assert (I1 : inv (w_ctx w1)).
  { cbn [do_api] in X. rewrite cfg_run in X. inversion X; subst. apply inv_init; assumption. }
  exact (history_inv HL HA l w1 rs' w I1 (C _ _ X) Y).
Qed.
Lemma careful_call : forall w a u, careful_world w -> fit_call a (w_ctx w) -> do_api a w = Ub u -> may a (w_ctx w) u.
Proof.
  intros w a u C F H. pose proof (step_safe HL HA a w (careful_inv w C) F) as S.
  destruct (sat_ub _ _ _ _ _ _ S H) as [X|X]; [exact X|]. 
  elim (step_ub _ _ _ (reachable_nonneg _ (careful_reach _ C)) H X).
Qed.
Lemma careful_snoc : forall l a w rs w1, careful l w -> runs l w = Ret rs w1 -> fit_call a (w_ctx w1) -> careful (l ++ [a]) w.
Proof.
  induction l as [|x l IH]; intros a w rs w1 C H F.
  - apply runs_nil in H as [_ <-]. cbn. auto.
  - destruct C as [C1 C2]. apply runs_cons in H as (r & w2 & rs1 & X & Y & _). cbn [app careful]. split; [exact C1|].
    intros r1 w3 Z. rewrite X in Z. inversion Z; subst. apply (IH a w3 rs1 w1); auto. now apply (C2 r1).
Qed.
Lemma careful_step : forall w a r w', careful_world w -> fit_call a (w_ctx w) -> do_api a w = Ret r w' -> careful_world w'.
Proof.
  intros w a r w' (w0 & l & rs & R & C & H) F D. exists w0, (l ++ [a]), (rs ++ [(a, r)]). split; [exact R|].
  change (AInit :: l ++ [a]) with ((AInit :: l) ++ [a]). split; [exact (careful_snoc _ _ _ _ _ C H F)|].
  exact (runs_snoc _ _ _ _ _ _ _ H D).
Qed.

(** ** C11 *)
Hypothesis HH : heap.
Lemma wrap : forall a b, 0 <= a < b -> b <= 2 ^ 62 -> 2 ^ 63 <= size_sub a b.
Proof.
  intros a b H1 H2. unfold size_sub. rewrite <- (Z_mod_plus_full (a - b) 1 (2 ^ 64)), Z.mod_small; lia.
Qed.
Lemma refused : forall U b n w (Q : bool -> world -> Prop), 2 ^ 63 <= n ->
  Q false (Wd (w_ctx w) (EvAlloc b n false :: w_tr w)) -> sat U (alloc b n) w Q.
Proof.
  intros U b n w Q Hn H. destruct HH as [S R]. unfold alloc. rewrite S. unfold sat, bind, trace, emit, ret.
  now rewrite (R _ _ _ Hn).
Qed.
Lemma dec_carries : forall msg b, wf_bytes msg -> dec_one_bstr cf_canon msg = Some b -> carries msg [Bstr b].
Proof.
  intros msg b W H. unfold dec_one_bstr in H. destruct (dec_bstr _ _) as [[x s']|] eqn:D; [|discriminate]. inversion H; subst.
  destruct (bstr_sound _ _ _ _ D W) as (h & A & B & _). exists h, (d_rest s'). split; [exact A|].
  rewrite <- (app_nil_r h). constructor; [exact B|constructor].
Qed.
Lemma past_intro : forall a k w, kind a = Some k -> args_ok a -> permitted k (w_ctx w) -> past_guards a w.
Proof. intros a k w H1 H2 H3. exists k. auto. Qed.
Lemma suite_small : forall w, careful_world w -> suite_fits (the_suite (w_ctx w)).
Proof. intros w C. apply nth_fits; [exact HL|]. apply (iv_suites _ (careful_inv w C)). Qed.

Definition only_refusal (e : list event) : Prop := forall x, In x e -> exists n, x = EvAlloc BCiphertext n false.
Lemma short_2_walk : forall msg w, wf_bytes msg -> msg <> [] -> permitted M2p (w_ctx w) -> (c_csuite_idx (w_ctx w) <? cf_max_suites) = true ->
  0 <= cs_ecc (the_suite (w_ctx w)) <= 2 ^ 62 -> short_of (cs_ecc (the_suite (w_ctx w))) msg ->
  sat (fun _ => False) (message_2_process true msg) w (fun r w' => (r = E_TOO_SMALL \/ r = E_NO_MEM) /\
    c_status (w_ctx w') = SM_ABORTED /\ exists e, w_tr w' = e ++ w_tr w /\ only_refusal e).
Proof.
  intros msg w W N P I R S. unfold message_2_process. 
  replace (zlen msg =? 0) with false by (destruct msg; [congruence|rewrite zlen_cons; pose proof (zlen_nonneg _ msg); lia]).
  cbn [negb orb]. apply sat_bind, sat_getc. unfold permitted, required in P. inversion P as [[P1 P2 P3]].
  unfold in_state. rewrite P1, P2, P3. cbn [andb negb Z.eqb Pos.eqb].
  unfold enter. apply sat_bind, sat_modify. unfold comp_ciphertext_2_len.
  destruct (dec_message_2 msg) as [z|] eqn:D.
  - assert (L : 0 <= zs_len z < cs_ecc (the_suite (w_ctx w))).
    { unfold dec_message_2 in D. destruct (dec_str_p _ _ _ _) as [[ok z'] s'] eqn:K. destruct ok; [|discriminate]. inversion D; subst z'.
      destruct (str_p_sound _ _ _ _ _ _ K W) as (h & r & Z1 & Z2 & Z3 & Z4 & Z5 & Z6 & _). split; [lia|].
      assert (CA : carries msg [Bstr (take (zs_len z) r)]).
      { exists (h ++ take (zs_len z) r), (d_rest s'). split; [exact Z3|]. rewrite <- (app_nil_r (h ++ _)). constructor; [|constructor].
        constructor. rewrite zlen_take by lia. exact Z4. }
      apply S in CA. rewrite zlen_take in CA; lia. }
    apply sat_bind. apply sat_bind. unfold get_suite. apply sat_bind, sat_getc. apply sat_bind, sat_check; [intro X; cbn in X; congruence|intros _].
    apply sat_ret, sat_ret. cbn [Z.eqb negb]. apply sat_bind. apply refused; [apply wrap; [exact L|exact (proj2 R)]|].
    apply sat_ret. split; [auto|]. split; [reflexivity|]. cbn. eexists [_]. split; [reflexivity|]. intros x [<-|[]]. eauto.
  - apply sat_bind, sat_ret, sat_ret. split; [auto|]. split; [reflexivity|]. exists []. split; [reflexivity|]. intros x [].
Qed.
Lemma short_2 : forall w msg, careful_world w -> cf_max_ecc <= 2 ^ 62 -> permitted M2p (w_ctx w) -> wf_bytes msg -> msg <> [] ->
  short_of (cs_ecc (the_suite (w_ctx w))) msg ->
  exists r w' e, do_api (AM2Process true msg) w = Ret (r, ONone) w' /\ (r = E_TOO_SMALL \/ r = E_NO_MEM) /\
    c_status (w_ctx w') = SM_ABORTED /\ w_tr w' = e ++ w_tr w /\ forall x, In x e -> exists n, x = EvAlloc BCiphertext n false.
Proof.
  intros w msg C M P W N S. pose proof (suite_small _ C) as [? ? ? ? ? X ?].
  assert (R : 0 <= cs_ecc (the_suite (w_ctx w)) <= 2 ^ 62) by lia.
  pose proof (short_2_walk msg w W N P (iv_idx _ (careful_inv w C)) R S) as H.
  cbn [do_api]. unfold no_out. unfold sat in H. unfold bind. destruct (message_2_process true msg w) as [r w'|]; [|contradiction].
  destruct H as (A & B & e & D & F). exists r, w', e. auto.
Qed.

Definition quiet_faults (u : ub) : Prop := u <> UbKidWrite /\ u <> UbEadRead.
Lemma qf : forall u, u <> UbMsg3Write -> u <> UbKidWrite -> u <> UbEadRead -> quiet_faults u.
Proof. intros. split; assumption. Qed.
Lemma nu_bind : forall A B (m : M A) (k : A -> M B) w Q, nu quiet_faults m -> (forall a w', sat quiet_faults (k a) w' Q) ->
  sat quiet_faults (bind m k) w Q.
Proof. intros A B m k w Q Hm Hk. apply sat_bind. eapply sat_conseq; [apply Hm|]. intros a w1 _. apply Hk. Qed.
Definition ne (r : Z) (_ : world) : Prop := r <> OK.
Lemma failp_ne : forall l r w, r <> OK -> sat quiet_faults (failp l r) w ne.
Proof. intros. unfold failp. apply nu_bind; [apply frees_nu, qf|]. intros. now apply sat_ret. Qed.
Ltac sh :=
  repeat match goal with
  | |- sat _ (ret _) _ _ => apply sat_ret; discriminate
  | |- sat _ (failp _ _) _ _ => apply failp_ne; discriminate
  | |- sat _ (if _ then _ else _) _ _ => destruct (_ : bool)
  end.
Lemma short_3_walk : forall nn msg w, wf_bytes msg ->
  cs_tag (the_suite (w_ctx w)) <= 2 ^ 62 -> short_of (cs_tag (the_suite (w_ctx w))) msg ->
  sat quiet_faults (message_3_process nn msg) w ne.
Proof.
  intros nn msg w W R S. unfold message_3_process. destruct (_ || _); [apply sat_ret; discriminate|].
  apply sat_bind, sat_getc. destruct (negb _); [apply sat_ret; discriminate|]. unfold enter. apply sat_bind, sat_modify.
  apply sat_bind. unfold get_suite. apply sat_bind, sat_getc. apply sat_bind, sat_check; [intros _; split; discriminate|intros _]. apply sat_ret.
  destruct (dec_one_bstr cf_canon msg) as [ct|] eqn:D; [|apply sat_ret; discriminate].
  apply dec_carries in D; [|exact W]. apply S in D.
  apply nu_bind; [apply alloc_nu, qf|]. intros ok w1. destruct (negb ok); [apply sat_ret; discriminate|].
  apply nu_bind; [apply alloc_nu, qf|]. intros ok1 w2. destruct (negb ok1); [apply failp_ne; discriminate|]. cbv zeta.
  apply nu_bind; [apply alloc_nu, qf|]. intros ok2 w3. destruct (negb ok2); [apply failp_ne; discriminate|].
  apply nu_bind; [apply key_iv_aad_3_nu, qf|]. intros [r [[key iv] aad]] w4. destruct (negb (r =? OK)); [apply failp_ne; discriminate|].
  apply sat_bind. apply refused; [|apply failp_ne; discriminate].
  apply wrap; [split; [apply zlen_nonneg|exact D]|exact R].
Qed.
Lemma short_4_walk : forall nn msg w, wf_bytes msg ->
  cs_tag (the_suite (w_ctx w)) <= 2 ^ 62 -> short_of (cs_tag (the_suite (w_ctx w))) msg ->
  sat quiet_faults (message_4_process nn msg) w ne.
Proof.
  intros nn msg w W R S. unfold message_4_process. destruct (_ || _); [apply sat_ret; discriminate|].
  apply sat_bind, sat_getc. destruct (negb _); [apply sat_ret; discriminate|]. unfold enter. apply sat_bind, sat_modify.
  apply sat_bind. unfold get_suite. apply sat_bind, sat_getc. apply sat_bind, sat_check; [intros _; split; discriminate|intros _]. apply sat_ret.
  destruct (dec_one_bstr cf_canon msg) as [ct|] eqn:D; [|apply sat_ret; discriminate].
  apply dec_carries in D; [|exact W]. apply S in D.
  apply nu_bind; [apply alloc_nu, qf|]. intros ok w1. destruct (negb ok); [apply sat_ret; discriminate|].
  apply nu_bind; [apply alloc_nu, qf|]. intros ok1 w2. destruct (negb ok1); [apply failp_ne; discriminate|]. cbv zeta.
  apply nu_bind; [apply alloc_nu, qf|]. intros ok2 w3. destruct (negb ok2); [apply failp_ne; discriminate|].
  apply nu_bind; [apply key_iv_aad_4_nu, qf|]. intros [r [[key iv] aad]] w4. destruct (negb (r =? OK)); [apply failp_ne; discriminate|].
  apply sat_bind. apply refused; [|apply failp_ne; discriminate].
  apply wrap; [split; [apply zlen_nonneg|exact D]|exact R].
Qed.
Lemma short_34 : forall w a k msg, careful_world w -> fit_call a (w_ctx w) -> cs_tag (the_suite (w_ctx w)) <= 2 ^ 62 ->
  a = AM3Process true msg /\ k = M3p \/ a = AM4Process true msg /\ k = M4p ->
  permitted k (w_ctx w) -> wf_bytes msg -> msg <> [] ->
  short_of (cs_tag (the_suite (w_ctx w))) msg ->
  exists r w', do_api a w = Ret (r, ONone) w' /\ r <> OK /\ c_status (w_ctx w') = SM_ABORTED.
Proof.
  intros w a k msg C F R Ha P W N S.
  assert (K : kind a = Some k) by (destruct Ha as [[-> ->]|[-> ->]]; reflexivity).
  assert (A : args_ok a) by (destruct Ha as [[-> ->]|[-> ->]]; cbn; auto).
  assert (X : sat quiet_faults (do_api a) w (fun x _ => fst x <> OK /\ snd x = ONone)).
  { destruct Ha as [[-> _]|[-> _]]; cbn [do_api]; unfold no_out; apply sat_bind; (eapply sat_conseq;
      [first [apply short_3_walk|apply short_4_walk]; assumption|]); intros r w' Y; apply sat_ret; auto. }
  destruct (do_api a w) as [[r o] w'|u] eqn:D.
  - destruct (sat_run _ _ _ _ _ _ _ X D) as [Y1 Y2]. cbn in Y1, Y2. subst o. exists r, w'. split; [reflexivity|]. split; [exact Y1|].
    exact (proj1 (failed_call_aborts a w _ w' (careful_reach _ C) (past_intro _ _ _ K A P) D Y1)).
  - exfalso. pose proof (careful_call w a u C F D) as M. destruct (sat_ub _ _ _ _ _ _ X D) as [Y1 Y2].
    destruct HH as [Hs _]. destruct Ha as [[-> _]|[-> _]]; destruct u; cbn in M; try contradiction; try congruence; destruct M; congruence.
Qed.
End Careful.
