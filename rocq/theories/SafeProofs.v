(** Memory safety of every helper: from a context within its array bounds, with callbacks that
    respect their sizes, only the faults in [U] can happen, and the bounds are kept. *)
From Verif Require Import Monad Api Common Msg1 Msg2 Msg3 Msg4 Exporter History Spec Safety
  Rfc Facts CborProofs RfcProofs CodecProofs Logic Frame.

(** The parts of the context no helper changes. *)
Record gfix := GF { g_cid : conn_id; g_suite : csuite; g_msg : Z; g_meth : Z; g_st : Z;
  g_cs : list csuite; g_csl : Z }.

Section Safe.
Context {E : env}.
Variable U : ub -> Prop.
Variable T : token -> Prop.
Variable v : gfix.

Record good (c : ctx) : Prop := Gd {
  gd_bound : bound c;
  gd_cid : c_cid c = g_cid v;
  gd_suite : the_suite c = g_suite v;
  gd_msg : c_message c = g_msg v;
  gd_meth : c_chosen_method c = g_meth v;
  gd_st : c_status c = g_st v;
  gd_cs : c_csuites c = g_cs v;
  gd_csl : c_csuite_len c = g_csl v;
  gd_pl : g_st v = SM_START -> c_peer_csuite_len c = 0;
  gd_idx : (c_csuite_idx c <? cf_max_suites) = true;
  gd_th : 0 <= c_th_len c <= cf_max_mac;
  gd_prk : 0 <= c_prk_len c <= cf_max_mac;
  gd_pub : 0 <= c_dh_pub_len c <= cf_max_ecc;
  gd_priv : 0 <= c_dh_priv_len c <= cf_max_ecc;
  gd_peer : 0 <= c_dh_peer_len c <= cf_max_ecc;
  gd_secret : 0 <= c_dh_secret_len c <= cf_max_ecc;
  gd_tok : Forall T (c_tokens c);
  gd_tokn : zlen (c_tokens c) <= 3 }.

Definition sf {A} (m : M A) (P : A -> Prop) : Prop :=
  forall w, good (w_ctx w) -> sat U m w (fun a w' => P a /\ good (w_ctx w')).
Definition true_of {A} (_ : A) : Prop := True.

Hypothesis HU1 : U UbFree.
Hypothesis HU2 : cf_stack <> None -> U UbVla.
Hypothesis HL : limits.
Hypothesis HA : abides.
Hypothesis HS : suite_fits (g_suite v).
Hypothesis HC1 : cid_type (g_cid v) = CID_INT -> -24 <= cid_int (g_cid v) <= 23.
Hypothesis HC2 : cid_type (g_cid v) = CID_BSTR -> zlen (cid_bstr (g_cid v)) <= 65535.
Definition toks_safe : Prop := (forall t, T t -> tok_fits t) \/ U UbEadRead.

Lemma bind_sf : forall A B (m : M A) (k : A -> M B) P Q,
  sf m P -> (forall a, P a -> sf (k a) Q) -> sf (bind m k) Q.
Proof.
  intros A B m k P Q H1 H2 w Hw. apply sat_bind. eapply sat_conseq; [apply H1; exact Hw|].
  intros a w' [Pa Gw]. apply H2; assumption.
Qed.
Lemma weak_sf : forall A (m : M A) (P Q : A -> Prop), sf m P -> (forall a, P a -> Q a) -> sf m Q.
Proof.
  intros A m P Q H1 H2 w Hw. eapply sat_conseq; [apply H1; exact Hw|]. intros a w' [Pa Gw]. auto.
Qed.
Lemma triv_sf : forall A (m : M A) P, sf m P -> sf m true_of.
Proof. intros. eapply weak_sf; [eassumption|]. intros; exact I. Qed.
Lemma ret_sf : forall A (a : A) (P : A -> Prop), P a -> sf (ret a) P.
Proof. intros A a P H w Hw. apply sat_ret. auto. Qed.
Lemma getc_sf : sf getc good.
Proof. intros w Hw. apply sat_getc. auto. Qed.
Lemma trace_sf : sf trace true_of.
Proof. intros w Hw. apply sat_trace. split; [exact I|auto]. Qed.
Lemma emit_sf : forall e, sf (emit e) true_of.
Proof. intros e w Hw. apply sat_emit. split; [exact I|auto]. Qed.
Lemma modify_sf : forall f, (forall c, good c -> good (f c)) -> sf (modify f) true_of.
Proof. intros f H w Hw. apply sat_modify. cbn [w_ctx]. split; [exact I|auto]. Qed.
Lemma check_sf : forall b u, (b = true \/ U u) -> sf (check b u) (fun _ => b = true).
Proof. intros b u H w Hw. apply sat_check; intro X; [|auto]. destruct H; [congruence|assumption]. Qed.
Lemma need_sf : forall A (o : option A) u, o <> None -> sf (need o u) (fun a => o = Some a).
Proof. intros A o u H w Hw. apply sat_need; [congruence|auto]. Qed.
Lemma check_true : forall b u, b = true -> sf (check b u) true_of.
Proof. intros. eapply triv_sf, check_sf. auto. Qed.

Ltac gd_mod := let c := fresh in let H := fresh in intros c H; destruct H; constructor; cbn in *; auto; try lia.

Lemma bound_import : forall c, good c -> f_import (c_keys c) <> None.
Proof. intros c H. apply (gd_bound c H). Qed.
Lemma bound_destroy : forall c, good c -> f_destroy (c_keys c) <> None.
Proof. intros c H. apply (gd_bound c H). Qed.
Ltac bcr H := destruct (gd_bound _ H) as (_ & B & _); unfold crypto_complete in B; tauto.
Ltac bcd H := destruct (gd_bound _ H) as (_ & _ & B); unfold cred_complete in B; tauto.

Ltac pcall :=
  eapply bind_sf; [apply getc_sf|]; intros c Hc; cbn beta in Hc;
  eapply bind_sf; [apply need_sf; first [now apply bound_import | now apply bound_destroy | bcr Hc | bcd Hc]|]; intros f _;
  eapply bind_sf; [apply trace_sf|]; intros t _; cbv zeta.
Ltac emitted := eapply bind_sf; [apply emit_sf|]; intros _ _.

Lemma import_sf : forall kt key, sf (call_import kt key) true_of.
Proof. intros. unfold call_import. pcall. destruct (o_import f t kt key) as [r kid]. emitted. now apply ret_sf. Qed.
Lemma destroy_sf : forall kid, sf (call_destroy kid) true_of.
Proof. intros. unfold call_destroy. pcall. emitted. now apply ret_sf. Qed.
Lemma verify_sf : forall k i s, sf (call_verify k i s) true_of.
Proof. intros. unfold call_verify. pcall. emitted. now apply ret_sf. Qed.
Lemma out_sf : forall n o, zlen o <= n -> sf (out_ok n o) true_of.
Proof. intros n o H. unfold out_ok. apply check_true. now apply Z.leb_le. Qed.
Ltac outd H := eapply bind_sf; [apply out_sf; exact H|]; intros _ _.
Lemma mkpair_sf : forall kid a b, 0 <= a -> 0 <= b ->
  sf (call_mkpair kid a b) (fun x => zlen (snd (fst x)) <= a /\ zlen (snd x) <= b).
Proof.
  intros kid a b Ha Hb. unfold call_mkpair. pcall. destruct (ab_mkpair HA f t kid a b Ha Hb) as [X Y].
  destruct (o_mkpair f t kid a b) as [[r p] q]. cbn [fst snd] in *. emitted. outd X. outd Y.
  apply ret_sf. auto.
Qed.
Lemma agree_sf : forall k p n, 0 <= n -> sf (call_agree k p n) (fun x => zlen (snd x) <= n).
Proof.
  intros k p n Hn. unfold call_agree. pcall. pose proof (ab_agree HA f t k p n Hn) as X.
  destruct (o_agree f t k p n) as [r o]. cbn [snd] in X. emitted. outd X. now apply ret_sf.
Qed.
Lemma sign_sf : forall k p n, 0 <= n -> sf (call_sign k p n) (fun x => zlen (snd x) <= n).
Proof.
  intros k p n Hn. unfold call_sign. pcall. pose proof (ab_sign HA f t k p n Hn) as X.
  destruct (o_sign f t k p n) as [r o]. cbn [snd] in X. emitted. outd X. now apply ret_sf.
Qed.
Lemma extract_sf : forall k p n, 0 <= n -> sf (call_extract k p n) (fun x => zlen (snd x) <= n).
Proof.
  intros k p n Hn. unfold call_extract. pcall. pose proof (ab_extract HA f t k p n Hn) as X.
  destruct (o_extract f t k p n) as [r o]. cbn [snd] in X. emitted. outd X. now apply ret_sf.
Qed.
Lemma expand_sf : forall k p n, 0 <= n -> sf (call_expand k p n) (fun x => zlen (snd x) <= n).
Proof.
  intros k p n Hn. unfold call_expand. pcall. pose proof (ab_expand HA f t k p n Hn) as X.
  destruct (o_expand f t k p n) as [r o]. cbn [snd] in X. emitted. outd X. now apply ret_sf.
Qed.
Lemma encrypt_sf : forall k iv a p n, 0 <= n -> sf (call_encrypt k iv a p n) (fun x => zlen (snd x) <= n).
Proof.
  intros k iv a p n Hn. unfold call_encrypt. pcall. pose proof (ab_encrypt HA f t k iv a p n Hn) as X.
  destruct (o_encrypt f t k iv a p n) as [r o]. cbn [snd] in X. emitted. outd X. now apply ret_sf.
Qed.
Lemma decrypt_sf : forall k iv a p n, 0 <= n -> sf (call_decrypt k iv a p n) (fun x => zlen (snd x) <= n).
Proof.
  intros k iv a p n Hn. unfold call_decrypt. pcall. pose proof (ab_decrypt HA f t k iv a p n Hn) as X.
  destruct (o_decrypt f t k iv a p n) as [r o]. cbn [snd] in X. emitted. outd X. now apply ret_sf.
Qed.
Lemma hash_sf : forall i n, 0 <= n -> sf (call_hash i n) (fun x => zlen (snd x) <= n).
Proof.
  intros i n Hn. unfold call_hash. pcall. pose proof (ab_hash HA f t i n Hn) as X.
  destruct (o_hash f t i n) as [r o]. cbn [snd] in X. emitted. outd X. now apply ret_sf.
Qed.
Lemma fetch_sf : sf call_fetch (fun x => fst x = OK -> creds_fit (snd x)).
Proof.
  unfold call_fetch. pcall. pose proof (ab_fetch HA f t) as X.
  destruct (o_fetch f t) as [r o]. emitted. apply ret_sf. cbn [fst snd]. intros ->. now apply X.
Qed.
Lemma cverify_sf : forall cr, creds_fit cr -> sf (call_cverify cr) (fun x => fst (fst x) = OK -> creds_fit (snd (fst x))).
Proof.
  intros cr Hcr. unfold call_cverify. pcall. pose proof (ab_cverify HA f t cr) as X.
  destruct (o_cverify f t cr) as [[r o] pub]. emitted. apply ret_sf. cbn [fst snd]. intros ->. now apply (X o pub).
Qed.
Lemma compose_sf : forall f m n, 0 <= n -> sf (call_compose f m n) (fun x => zlen (snd x) <= n /\ Forall tok_fits (snd x)).
Proof.
  intros f m n Hn. unfold call_compose. eapply bind_sf; [apply trace_sf|]. intros t _.
  pose proof (ab_compose HA f t m n Hn) as X. destruct (o_compose f t m n) as [r l]. cbn [snd] in X. emitted.
  apply ret_sf. exact X.
Qed.
Lemma process_sf : forall f m l, sf (call_process f m l) true_of.
Proof. intros. unfold call_process. eapply bind_sf; [apply trace_sf|]. intros t _. cbv zeta. emitted. now apply ret_sf. Qed.

Lemma alloc_sf : forall b n, sf (alloc b n) true_of.
Proof.
  intros b n. unfold alloc. destruct cf_stack eqn:X.
  - eapply bind_sf; [apply check_sf; right; apply HU2; congruence|]. intros _ _. emitted. now apply ret_sf.
  - eapply bind_sf; [apply trace_sf|]. intros t _. cbv zeta. emitted. now apply ret_sf.
Qed.
Lemma free_sf : forall b, sf (free b) true_of.
Proof.
  intros b. unfold free. eapply bind_sf; [apply trace_sf|]. intros t _.
  eapply bind_sf; [apply check_sf; right; exact HU1|]. intros _ _. apply emit_sf.
Qed.
Lemma frees_sf : forall l, sf (frees l) true_of.
Proof.
  induction l as [|b l IH]; cbn [frees]; [now apply ret_sf|]. eapply bind_sf; [apply free_sf|]. intros _ _. exact IH.
Qed.
Lemma fail_sf : forall l r (P : Z * bytes -> Prop), P (r, []) -> sf (fail l r) P.
Proof. intros l r P H. unfold fail. eapply bind_sf; [apply frees_sf|]. intros _ _. now apply ret_sf. Qed.
Lemma failp_sf : forall l r (P : Z -> Prop), P r -> sf (failp l r) P.
Proof. intros l r P H. unfold failp. eapply bind_sf; [apply frees_sf|]. intros _ _. now apply ret_sf. Qed.
Lemma get_suite_sf : sf get_suite (fun s => s = g_suite v).
Proof.
  unfold get_suite. eapply bind_sf; [apply getc_sf|]. intros c Hc. eapply bind_sf; [apply check_true, (gd_idx _ Hc)|].
  intros _ _. apply ret_sf. apply (gd_suite _ Hc).
Qed.
Lemma rd_sf : forall cap n l, 0 <= n <= cap -> sf (rd cap n l) (fun b => zlen b = n).
Proof.
  intros cap n l H. unfold rd. eapply bind_sf; [apply check_true; now apply Z.leb_le|]. intros _ _.
  apply ret_sf. apply zlen_arr_read. lia.
Qed.
Lemma get_th_sf : sf get_th (fun b => zlen b <= cf_max_mac).
Proof.
  unfold get_th. eapply bind_sf; [apply getc_sf|]. intros c []. eapply weak_sf; [apply rd_sf; lia|].
  cbn beta. intros; lia.
Qed.
Ltac getter := eapply bind_sf; [apply getc_sf|]; let c := fresh in intros c [];
  eapply triv_sf, rd_sf; lia.
Lemma get_prk_sf : sf get_prk true_of. Proof. unfold get_prk. getter. Qed.
Lemma get_dh_pub_sf : sf get_dh_pub true_of. Proof. unfold get_dh_pub. getter. Qed.
Lemma get_dh_priv_sf : sf get_dh_priv true_of. Proof. unfold get_dh_priv. getter. Qed.
Lemma get_dh_peer_sf : sf get_dh_peer true_of. Proof. unfold get_dh_peer. getter. Qed.
Lemma get_dh_secret_sf : sf get_dh_secret true_of. Proof. unfold get_dh_secret. getter. Qed.
Ltac putter := intros; unfold wr; eapply bind_sf; [apply check_true; now apply Z.leb_le|]; intros _ _;
  apply modify_sf; gd_mod.
Lemma put_th_sf : forall o, zlen o <= cf_max_mac -> sf (put_th o) true_of. Proof. unfold put_th. putter. Qed.
Lemma put_prk_sf : forall o, zlen o <= cf_max_mac -> sf (put_prk o) true_of. Proof. unfold put_prk. putter. Qed.
Lemma put_dh_pub_sf : forall o, zlen o <= cf_max_ecc -> sf (put_dh_pub o) true_of. Proof. unfold put_dh_pub. putter. Qed.
Lemma put_dh_priv_sf : forall o, zlen o <= cf_max_ecc -> sf (put_dh_priv o) true_of. Proof. unfold put_dh_priv. putter. Qed.
Lemma put_dh_peer_sf : forall o, zlen o <= cf_max_ecc -> sf (put_dh_peer o) true_of. Proof. unfold put_dh_peer. putter. Qed.
Lemma put_dh_secret_sf : forall o, zlen o <= cf_max_ecc -> sf (put_dh_secret o) true_of. Proof. unfold put_dh_secret. putter. Qed.

(** *** Automation *)
Create HintDb sfdb.
Hint Resolve import_sf destroy_sf verify_sf mkpair_sf agree_sf sign_sf extract_sf expand_sf encrypt_sf decrypt_sf
  hash_sf fetch_sf cverify_sf compose_sf process_sf alloc_sf free_sf frees_sf get_suite_sf get_th_sf get_prk_sf
  get_dh_pub_sf get_dh_priv_sf get_dh_peer_sf get_dh_secret_sf put_th_sf put_prk_sf put_dh_pub_sf put_dh_priv_sf
  put_dh_peer_sf put_dh_secret_sf getc_sf trace_sf emit_sf : sfdb.
Lemma szs : 0 <= cs_hash (g_suite v) <= cf_max_mac /\ 0 <= cs_ecc (g_suite v) <= cf_max_ecc /\
  0 <= cs_key (g_suite v) /\ 0 <= cs_tag (g_suite v) /\ 0 <= cs_iv (g_suite v) /\ 0 <= cs_mac (g_suite v) /\
  0 <= cs_sign (g_suite v) /\ 0 <= cf_max_mac <= 65535 /\ 0 <= cf_max_ecc.
Proof. destruct HS, HL. repeat split; tauto. Qed.
Ltac arith := first [assumption | exact I | cbn [fst snd] in *; lia | pose proof szs; cbn [fst snd] in *; lia].
Hint Extern 2 (_ <= _) => arith : sfdb.
Hint Extern 1 (sf (modify _) _) => (apply modify_sf; pose proof szs; gd_mod) : sfdb.
Ltac tidy := cbn [fst snd] in *; repeat match goal with
  | H : ?x = g_suite v |- _ => subst x
  | H : true_of _ |- _ => clear H
  | H : _ /\ _ |- _ => destruct H
  end.
Ltac sstep :=
  lazymatch goal with
  | |- sf (bind _ _) _ =>
      first [ eapply bind_sf; [solve [eauto 3 with sfdb nocore]|]
            | apply bind_sf with (P := true_of); [solve [repeat sstep]|] ];
      intros ? ?; tidy
  | |- sf (if ?b then _ else _) _ => split_bool b
  | |- sf (match ?x with _ => _ end) _ => destruct x; tidy
  | |- sf (ret _) _ => apply ret_sf; try exact I
  | |- sf (fail _ _) _ => apply fail_sf; try exact I
  | |- sf (failp _ _) _ => apply failp_sf; try exact I
  | |- sf (_ _) true_of => first [solve [eauto 3 with sfdb nocore] | solve [eapply triv_sf; eauto 3 with sfdb nocore]]
  | |- sf ?m true_of => first [solve [eauto 3 with sfdb nocore] | solve [eapply triv_sf; eauto 3 with sfdb nocore]]
  end.
Ltac sgo := intros; cbv zeta; repeat (sstep; cbv zeta).

(** *** Message helpers *)
Lemma hash_into_th_sf : forall n i, 0 <= n <= cf_max_mac -> sf (hash_into_th n i) true_of.
Proof. intros n i H. unfold hash_into_th. sgo. Qed.
Hint Resolve hash_into_th_sf : sfdb.
Hint Extern 2 (_ <= _ <= _) => (split; arith) : sfdb.
Lemma blit_len : forall n (o : bytes), 0 <= n -> zlen o <= n -> zlen (blit (zeros n) o) = n.
Proof.
  intros n o Hn H. unfold blit. rewrite zlen_app. unfold zlen at 2. rewrite skipn_length.
  unfold zeros. rewrite repeat_length. unfold zlen in *. lia.
Qed.
Lemma kdf_sf : forall b len lab (cx pk : M bytes) n P1 P2, 0 <= n -> sf cx P1 -> sf pk P2 ->
  sf (kdf b len lab cx pk n) true_of.
Proof.
  intros b len lab cx pk n P1 P2 Hn H1 H2. apply triv_sf in H1. apply triv_sf in H2. unfold kdf. sgo.
Qed.
Lemma gen_dh_keys_sf : sf gen_dh_keys true_of.
Proof. unfold gen_dh_keys. sgo. Qed.
Lemma comp_dh_secret_sf : sf comp_dh_secret true_of.
Proof. unfold comp_dh_secret. sgo. Qed.
Lemma comp_th_2_sf : sf comp_th_2 true_of.
Proof. unfold comp_th_2. sgo. Qed.
Lemma comp_prk_2e_sf : sf comp_prk_2e true_of.
Proof. unfold comp_prk_2e. sgo. Qed.
Hint Resolve gen_dh_keys_sf comp_dh_secret_sf comp_th_2_sf comp_prk_2e_sf : sfdb.
Lemma comp_salt_3e2m_sf : forall n, 0 <= n -> sf (comp_salt_3e2m n) true_of.
Proof. intros n Hn. unfold comp_salt_3e2m. sgo. eapply kdf_sf; eauto with sfdb. Qed.
Lemma comp_salt_4e3m_sf : forall n, 0 <= n -> sf (comp_salt_4e3m n) true_of.
Proof. intros n Hn. unfold comp_salt_4e3m. sgo. eapply kdf_sf; eauto with sfdb. Qed.
Lemma agree_eph_sf : forall p n, 0 <= n -> sf (agree_eph p n) true_of.
Proof. intros p n Hn. unfold agree_eph. sgo. Qed.
Lemma agree_static_sf : forall cr n, 0 <= n -> sf (agree_static cr n) true_of.
Proof. intros p n Hn. unfold agree_static. sgo. Qed.
Hint Resolve agree_eph_sf agree_static_sf comp_salt_3e2m_sf comp_salt_4e3m_sf : sfdb.
Lemma comp_grx_sf : forall cr p n, 0 <= n -> sf (comp_grx cr p n) true_of.
Proof. intros cr p n Hn. unfold comp_grx. sgo. Qed.
Lemma comp_giy_sf : forall cr p n, 0 <= n -> sf (comp_giy cr p n) true_of.
Proof. intros cr p n Hn. unfold comp_giy. sgo. Qed.
Lemma prk_static_sf : forall f g nx, (forall n, 0 <= n -> sf (f n) true_of) -> (forall n, 0 <= n -> sf (g n) true_of) ->
  sf (prk_static f g nx) true_of.
Proof. intros f g nx Hf Hg. unfold prk_static. sgo. Qed.
Hint Resolve comp_grx_sf comp_giy_sf : sfdb.
Lemma comp_prk_3e2m_sf : forall cr p, sf (comp_prk_3e2m cr p) true_of.
Proof.
  intros cr p. unfold comp_prk_3e2m. sgo. apply prk_static_sf; intros; eauto with sfdb.
Qed.
Lemma comp_prk_4e3m_sf : forall cr p, sf (comp_prk_4e3m cr p) true_of.
Proof.
  intros cr p. unfold comp_prk_4e3m. sgo. apply prk_static_sf; intros; eauto with sfdb.
Qed.
Lemma comp_keystream_sf : forall p n, 0 <= n -> sf (comp_keystream p n) true_of.
Proof. intros p n Hn. unfold comp_keystream. sgo. eapply kdf_sf; [exact Hn|apply get_th_sf|apply ret_sf; exact I]. Qed.
Hint Resolve comp_prk_3e2m_sf comp_prk_4e3m_sf comp_keystream_sf : sfdb.

(** *** Tokens and credentials *)
Lemma read_toks_sf : toks_safe -> forall p l, Forall T l -> (forall t, p t = true -> T t -> tok_present t = true \/ tok_fits t) ->
  sf (read_toks p l) true_of.
Proof.
  intros HT p l H Hp. induction l as [|t l IH]; cbn [read_toks]; [now apply ret_sf|]. inversion H; subst.
  apply bind_sf with (P := true_of).
  - destruct (p t) eqn:Pt; [|now apply ret_sf]. apply bind_sf with (P := true_of); [|intros; now apply ret_sf].
    unfold rd_tok. destruct (zs_len (tk_val t) <=? 0) eqn:L; [now apply ret_sf|].
    destruct (zs_ptr (tk_val t)) as [b|] eqn:Z.
    + eapply bind_sf; [|intros; now apply ret_sf]. apply check_sf.
      destruct HT as [HT0|HT0]; [left|right; exact HT0]. specialize (HT0 t H2). unfold tok_fits in HT0.
      rewrite Z in HT0. lia.
    + exfalso. destruct (Hp t Pt H2) as [X|X]; unfold tok_present, tok_fits in X; rewrite Z in X; [discriminate|lia].
  - intros x _. eapply bind_sf; [apply IH; assumption|]. intros; now apply ret_sf.
Qed.
Lemma encode_tokens_sf : toks_safe -> forall p cap l, Forall T l -> zlen l <= 3 ->
  (forall t, p t = true -> T t -> tok_present t = true \/ tok_fits t) -> sf (encode_tokens p cap l) true_of.
Proof.
  intros HT p cap l H1 H2 H3. unfold encode_tokens. eapply bind_sf; [apply check_true; lia|]. intros _ _.
  destruct (zlen l =? 0); [now apply ret_sf|]. destruct (cap <? _); [now apply ret_sf|].
  eapply bind_sf; [apply (read_toks_sf HT); assumption|]. intros; now apply ret_sf.
Qed.
Lemma ead_compose_sf : (forall t, tok_fits t -> T t) -> sf ead_compose true_of.
Proof.
  intro HT'. unfold ead_compose. eapply bind_sf; [apply getc_sf|]. intros c Hc. destruct (f_compose (c_ead c)); [|now apply ret_sf].
  destruct (cf_max_ead =? 0) eqn:X; [now apply ret_sf|]. pose proof (lm_ead HL).
  eapply bind_sf; [apply compose_sf; lia|]. intros [r l] [L1 L2]. cbn [snd] in *.
  eapply bind_sf; [apply modify_sf|intros; now apply ret_sf].
  intros c0 []; constructor; cbn; auto; [|lia].
  apply Forall_forall. intros x Hx. apply HT'. rewrite Forall_forall in L2. auto.
Qed.
Lemma ead_process_sf : sf ead_process true_of.
Proof. unfold ead_process. sgo. Qed.
Hint Resolve ead_process_sf : sfdb.

Section Creds.
Variable cr : creds.
Hypothesis Hcr : creds_fit cr.
Ltac lab L := destruct Hcr as (C1 & C2 & C3 & C4); apply Z.eqb_eq in L.
Lemma need_any : cr_label cr =? COSE_ANY = true -> exists i comp e ce ca, as_any (cr_body cr) = Some (i, comp, e, ce, ca) /\
  (comp = true -> e = ENC_INT -> zlen ce <= 4) /\ (comp = true -> e = ENC_BSTR -> zlen ce <= cf_max_kid + 1).
Proof. intro L. lab L. destruct (C1 L) as (i & co & e & ce & ca & -> & X & Y). exists i, co, e, ce, ca. auto. Qed.
Lemma need_kid : cr_label cr =? COSE_KID = true -> exists ca ic e ki kb, as_kid (cr_body cr) = Some (ca, ic, e, ki, kb) /\ zlen kb <= cf_max_kid + 1.
Proof. intro L. lab L. destruct (C2 L) as (a & b & c & d & e & -> & X). exists a, b, c, d, e. auto. Qed.
Lemma need_chain : cr_label cr =? COSE_CHAIN = true -> exists l, as_chain (cr_body cr) = Some l.
Proof. intro L. lab L. destruct (C3 L) as (l & ->). eexists; reflexivity. Qed.
Lemma need_hash : cr_label cr =? COSE_HASH = true -> exists ct fp e ai ab, as_hash (cr_body cr) = Some (ct, fp, e, ai, ab).
Proof. intro L. lab L. destruct (C4 L) as (a & b & c & d & e & ->). exists a, b, c, d, e. reflexivity. Qed.
Lemma need_some : forall A (o : option A) u a, o = Some a -> sf (need o u) (fun x => x = a).
Proof. intros A o u a -> w Hw. apply sat_need; [discriminate|]. intros b X. split; [congruence|exact Hw]. Qed.
Ltac ndone L :=
  let EQ := fresh "EQ" in
  first [ destruct (need_any L) as (? & ? & ? & ? & ? & EQ & ? & ?)
        | destruct (need_kid L) as (? & ? & ? & ? & ? & EQ & ?)
        | destruct (need_chain L) as (? & EQ)
        | destruct (need_hash L) as (? & ? & ? & ? & ? & EQ) ];
  eapply bind_sf; [apply (need_some _ _ _ _ EQ)|]; intros ? ->; clear EQ.
Lemma comp_id_cred_len_sf : sf (comp_id_cred_len cr) true_of.
Proof.
  unfold comp_id_cred_len. destruct (cr_label cr =? COSE_ANY) eqn:L1; [ndone L1; now apply ret_sf|].
  destruct (cr_label cr =? COSE_KID) eqn:L2; [ndone L2; sgo|].
  destruct (cr_label cr =? COSE_CHAIN) eqn:L3; [ndone L3; sgo|].
  destruct (cr_label cr =? COSE_HASH) eqn:L4; [ndone L4; sgo|]. now apply ret_sf.
Qed.
Lemma comp_cred_len_sf : sf (comp_cred_len cr) (fun x => fst x = OK -> cr_label cr = COSE_ANY \/ cr_label cr = COSE_KID \/
  cr_label cr = COSE_CHAIN \/ cr_label cr = COSE_HASH).
Proof.
  unfold comp_cred_len. destruct (cr_label cr =? COSE_ANY) eqn:L1; [ndone L1; apply ret_sf; cbn [fst]; lia|].
  destruct (cr_label cr =? COSE_KID) eqn:L2; [ndone L2; apply ret_sf; cbn [fst]; lia|].
  destruct (cr_label cr =? COSE_CHAIN) eqn:L3; [ndone L3; apply ret_sf; cbn [fst]; lia|].
  destruct (cr_label cr =? COSE_HASH) eqn:L4; [ndone L4; apply ret_sf; cbn [fst]; lia|]. apply ret_sf. discriminate.
Qed.
Lemma id_cred_of_sf : sf (id_cred_of cr) (fun x => x = inr None -> cr_label cr =? COSE_ANY = true).
Proof.
  unfold id_cred_of. destruct (cr_label cr =? COSE_ANY) eqn:L1; [now apply ret_sf|].
  destruct (cr_label cr =? COSE_KID) eqn:L2; [ndone L2; sgo; discriminate|].
  destruct (cr_label cr =? COSE_CHAIN) eqn:L3; [ndone L3; sgo; discriminate|].
  destruct (cr_label cr =? COSE_HASH) eqn:L4; [ndone L4; sgo; discriminate|]. apply ret_sf. discriminate.
Qed.
Lemma cred_bytes_sf : forall cap, (cr_label cr = COSE_ANY \/ cr_label cr = COSE_KID \/
  cr_label cr = COSE_CHAIN \/ cr_label cr = COSE_HASH) -> sf (cred_bytes cr cap) true_of.
Proof.
  intros cap Hl. unfold cred_bytes. destruct (cr_label cr =? COSE_ANY) eqn:L1; [ndone L1; now apply ret_sf|].
  destruct (cr_label cr =? COSE_KID) eqn:L2; [ndone L2; sgo|].
  destruct (cr_label cr =? COSE_CHAIN) eqn:L3; [ndone L3; sgo|].
  assert (L4 : cr_label cr =? COSE_HASH = true) by lia. ndone L4. sgo.
Qed.
Lemma kid_compact_sf : cr_label cr =? COSE_KID = true -> sf (kid_compact_encoding cr) true_of.
Proof.
  intro L. unfold kid_compact_encoding. ndone L. sgo.
  all: eapply bind_sf; [apply check_true; lia|]; intros; sgo.
Qed.
Lemma comp_mac_context_length_sf : sf (comp_mac_context_length cr) true_of.
Proof.
  unfold comp_mac_context_length. pose proof comp_id_cred_len_sf. pose proof (triv_sf _ _ _ comp_cred_len_sf).
  eapply bind_sf; [apply getc_sf|]. intros c Hc. sgo.
Qed.
Lemma comp_mac_context_sf : toks_safe -> forall n, sf (comp_mac_context cr n) true_of.
Proof.
  intros HT n. unfold comp_mac_context. pose proof comp_id_cred_len_sf as I1.
  eapply bind_sf; [apply getc_sf|]. intros c Hc. cbv zeta.
  destruct (negb (role_ok c)); [now apply ret_sf|]. destruct (_ || _); [now apply ret_sf|].
  destruct (_ && _); [now apply ret_sf|]. destruct (_ && _); [now apply ret_sf|].
  destruct (if c_message c =? MSG_2 then comp_cid_len (mac_cid c) else (OK, 0)) as [r0 l0].
  destruct (negb (r0 =? OK)); [now apply ret_sf|].
  destruct (if c_message c =? MSG_2 then encode_cid (mac_cid c) l0 else Some []) as [cidb|]; [|now apply ret_sf].
  eapply bind_sf; [exact I1|]. intros [r1 l1] _. destruct (negb (r1 =? OK)); [now apply ret_sf|].
  eapply bind_sf; [apply id_cred_of_sf|]. intros ic Hic. destruct ic as [e|o]; [now apply ret_sf|].
  apply bind_sf with (P := true_of).
  { destruct o; [now apply ret_sf|]. specialize (Hic eq_refl). ndone Hic. now apply ret_sf. }
  intros idb _. destruct idb as [idb|]; [|now apply ret_sf].
  apply bind_sf with (P := true_of).
  { destruct (cr_label cr =? COSE_KID) eqn:L2.
    - eapply bind_sf; [apply kid_compact_sf; exact L2|]. intros [r x] _. sgo.
    - destruct (cr_label cr =? COSE_ANY) eqn:L1; [|now apply ret_sf]. ndone L1. sgo.
      + apply Z.eqb_eq in X0. eapply bind_sf; [apply check_true; lia|]; intros; sgo.
      + apply Z.eqb_eq in X1. eapply bind_sf; [apply check_true; lia|]; intros; sgo. }
  intros [rc [comp [[ct ci] cb]]] _. destruct (negb (rc =? OK)); [now apply ret_sf|].
  destruct (comp_th_len (c_th_len c)) as [r2 l2]. destruct (negb (r2 =? OK)); [now apply ret_sf|].
  eapply bind_sf; [apply get_th_sf|]. intros th _. destruct (fits l2 (enc_bstr th)) as [thb|]; [|now apply ret_sf].
  eapply bind_sf; [apply comp_cred_len_sf|]. intros [r3 l3] Hl. cbn [fst] in Hl. destruct (r3 =? OK) eqn:R3; cbn [negb]; [|now apply ret_sf].
  apply Z.eqb_eq in R3. eapply bind_sf; [apply cred_bytes_sf; exact (Hl R3)|]. intros crb _.
  destruct crb as [crb|]; [|now apply ret_sf].
  apply bind_sf with (P := true_of).
  { destruct (zlen (c_tokens c) =? 0); [now apply ret_sf|].
    apply (encode_tokens_sf HT); [apply (gd_tok _ Hc)|apply (gd_tokn _ Hc)|auto]. }
  intros eb _. destruct eb as [eb|]; [|now apply ret_sf]. destruct (n <? _); now apply ret_sf.
Qed.
End Creds.

Definition mac_size : Z := match signs (g_msg v) (g_meth v) with Some true => cs_hash (g_suite v) | Some false => cs_mac (g_suite v) | None => 0 end.
Definition sig_size : Z := match signs (g_msg v) (g_meth v) with Some true => cs_sign (g_suite v) | Some false => cs_mac (g_suite v) | None => 0 end.
Lemma comp_mac_length_sf : sf comp_mac_length (fun x => fst x = OK -> snd x = mac_size).
Proof.
  unfold comp_mac_length. eapply bind_sf; [apply getc_sf|]. intros c Hc. destruct (negb (role_ok c)); [apply ret_sf; discriminate|].
  eapply bind_sf; [apply get_suite_sf|]. intros s ->. rewrite (gd_msg _ Hc), (gd_meth _ Hc). unfold mac_size.
  destruct (signs _ _) as [[]|]; apply ret_sf; auto; discriminate.
Qed.
Lemma comp_sign_or_mac_length_sf : sf comp_sign_or_mac_length (fun x => fst x = OK -> snd x = sig_size).
Proof.
  unfold comp_sign_or_mac_length. eapply bind_sf; [apply getc_sf|]. intros c Hc. destruct (negb (role_ok c)); [apply ret_sf; discriminate|].
  eapply bind_sf; [apply get_suite_sf|]. intros s ->. rewrite (gd_msg _ Hc), (gd_meth _ Hc). unfold sig_size.
  destruct (signs _ _) as [[]|]; apply ret_sf; auto; discriminate.
Qed.
Lemma comp_mac_sf : forall m n, 0 <= n -> sf (comp_mac m n) (fun x => fst x = OK -> zlen (snd x) = n).
Proof.
  intros m n Hn. unfold comp_mac. sgo.
  all: cbn [fst snd]; try discriminate. intros _. apply blit_len; assumption.
Qed.
Lemma sign_cose_sf : forall cr m mac n, 0 <= n -> sf (sign_cose_sign_1 cr m mac n) true_of.
Proof. intros. unfold sign_cose_sign_1. sgo. Qed.
Lemma verify_cose_sf : forall m pub mac s, sf (verify_cose_sign_1 m pub mac s) true_of.
Proof. intros. unfold verify_cose_sign_1. sgo. Qed.
Lemma comp_sign_or_mac_sf : forall cr m mac, zlen mac = mac_size -> sf (comp_sign_or_mac cr m mac sig_size) true_of.
Proof.
  intros cr m mac Hm. unfold comp_sign_or_mac. destruct (_ || _); [now apply ret_sf|].
  eapply bind_sf; [apply getc_sf|]. intros c Hc. rewrite (gd_msg _ Hc), (gd_meth _ Hc). unfold mac_size, sig_size in *.
  destruct (signs _ _) as [[]|]; [apply sign_cose_sf; pose proof szs; lia| |destruct (_ && _); now apply ret_sf].
  eapply bind_sf; [apply check_true; lia|]. intros; now apply ret_sf.
Qed.
Lemma verify_sign_or_mac_sf : forall m pub s mac, sf (verify_sign_or_mac m pub s mac) true_of.
Proof.
  intros m pub s mac. unfold verify_sign_or_mac. destruct (_ || _); [now apply ret_sf|].
  eapply bind_sf; [apply getc_sf|]. intros c _. destruct (signs _ _) as [[]|]; [apply verify_cose_sf| |];
    destruct (_ && _) || destruct (_ || _); now apply ret_sf.
Qed.

(** *** Plaintexts *)
Definition cid_room (i : conn_id) : Z :=
  if cid_type i =? CID_INT then int_mem_req (cid_int i)
  else if cid_type i =? CID_BSTR then zlen (cid_bstr i) + bstr_oh (zlen (cid_bstr i)) else 0.
Definition id_room (m : macctx) : Z :=
  if mc_comp m then
    if mc_ctype m =? ENC_INT then int_mem_req (mc_cint m)
    else if mc_ctype m =? ENC_BSTR then zlen (mc_cbstr m) + bstr_oh (zlen (mc_cbstr m)) else 0
  else zlen (mc_id m).
Definition ptxt_room (m : macctx) (n : Z) : Z := cid_room (g_cid v) + id_room m + n + bstr_oh n + zlen (mc_ead m).
Lemma comp_plaintext_len_sf : forall m n, sf (comp_plaintext_len m n) (fun x => fst x = OK -> snd x = ptxt_room m n).
Proof.
  intros m n. unfold comp_plaintext_len. destruct (n =? 0); [apply ret_sf; discriminate|].
  eapply bind_sf; [apply getc_sf|]. intros c Hc. apply ret_sf. intros _. cbn [snd].
  unfold ptxt_room, cid_room, id_room. rewrite (gd_cid _ Hc). reflexivity.
Qed.
Lemma oh_pos : forall n, 1 <= bstr_oh n.
Proof. intro n. unfold bstr_oh. repeat destruct (_ <=? _); lia. Qed.
Lemma imr_pos : forall n, 1 <= int_mem_req n.
Proof. intro n. unfold int_mem_req. repeat destruct (_ && _); lia. Qed.
Lemma fits_some : forall n b x, fits n b = Some x -> x = b /\ zlen b <= n.
Proof. intros n b x. unfold fits. destruct (zlen b <=? n) eqn:L; [|discriminate]. intros [= <-]. split; [reflexivity|lia]. Qed.
Lemma fill_plaintext_sf : forall m s pre size,
  zlen pre + id_room m + zlen s + bstr_oh (zlen s) + zlen (mc_ead m) <= size ->
  sf (fill_plaintext m s pre size) true_of.
Proof.
  intros m s pre size H. unfold fill_plaintext.
  apply bind_sf with (P := fun x => fst x = OK -> zlen (snd x) <= id_room m).
  { unfold id_room. destruct (mc_comp m); [|apply ret_sf; cbn [snd]; lia].
    destruct (mc_ctype m =? ENC_INT); [apply ret_sf; cbn [snd]; intros _; rewrite zlen_cons, zlen_nil; pose proof (imr_pos (mc_cint m)); lia|].
    destruct (mc_ctype m =? ENC_BSTR); [apply ret_sf; cbn [snd]; intros _; pose proof (oh_pos (zlen (mc_cbstr m))); lia|].
    apply ret_sf. discriminate. }
  intros [r idb] Hi. cbn [fst snd] in Hi. destruct (r =? OK) eqn:R; cbn [negb]; [|now apply ret_sf].
  apply Z.eqb_eq in R. specialize (Hi R). cbv zeta. pose proof (oh_pos (zlen s)). pose proof (zlen_nonneg _ s).
  pose proof (zlen_nonneg _ (mc_ead m)).
  eapply bind_sf; [apply check_true; rewrite zlen_app; lia|]. intros _ _.
  destruct (fits (zlen s + bstr_oh (zlen s)) (enc_bstr s)) as [sb|] eqn:F; [|now apply ret_sf].
  apply fits_some in F. destruct F as [-> F].
  eapply bind_sf; [apply check_true; rewrite !zlen_app; lia|]. intros _ _.
  eapply bind_sf; [apply check_true; destruct (mc_is_ead m); rewrite !zlen_app; lia|]. intros _ _.
  now apply ret_sf.
Qed.
Lemma int_len : forall i, zlen (enc_int i) = zlen (cbor (Num i)).
Proof. intro i. now rewrite enc_int_rfc. Qed.
Lemma bstr_len : forall b : bytes, zlen b <= 65535 -> zlen (enc_bstr b) = zlen b + bstr_oh (zlen b).
Proof.
  intros b H. rewrite enc_bstr_rfc. cbn [cbor]. rewrite zlen_app, <- str_size_exact; [lia|].
  pose proof (zlen_nonneg _ b). lia.
Qed.
Lemma prepare_plaintext_2_sf : forall m s, sf (prepare_plaintext_2 m s (ptxt_room m (zlen s))) true_of.
Proof.
  intros m s. unfold prepare_plaintext_2. eapply bind_sf; [apply getc_sf|]. intros c Hc. rewrite (gd_cid _ Hc).
  destruct (negb _) eqn:N; [now apply ret_sf|].
  destruct (encode_cid _ _) as [cb|] eqn:X; [|now apply ret_sf]. apply fill_plaintext_sf.
  assert (zlen cb <= cid_room (g_cid v)); [|unfold ptxt_room; lia].
  unfold encode_cid, cid_room in *. destruct (cid_type (g_cid v) =? CID_INT) eqn:CI.
  - apply fits_some in X. destruct X as [-> X]. apply Z.eqb_eq in CI. specialize (HC1 CI).
    rewrite int_len, <- int_size_exact; lia.
  - cbn [orb] in N. destruct (cid_type (g_cid v) =? CID_BSTR) eqn:CB; [|discriminate N].
    apply fits_some in X. destruct X as [-> X]. apply Z.eqb_eq in CB. specialize (HC2 CB).
    rewrite bstr_len; lia.
Qed.
Lemma prepare_plaintext_3_sf : forall m s, sf (prepare_plaintext_3 m s (ptxt_room m (zlen s))) true_of.
Proof.
  intros m s. unfold prepare_plaintext_3. destruct (_ || _); [now apply ret_sf|]. apply fill_plaintext_sf.
  unfold ptxt_room. rewrite zlen_nil. assert (0 <= cid_room (g_cid v)); [|lia].
  unfold cid_room. pose proof (imr_pos (cid_int (g_cid v))). pose proof (oh_pos (zlen (cid_bstr (g_cid v)))).
  pose proof (zlen_nonneg _ (cid_bstr (g_cid v))). repeat destruct (_ =? _); lia.
Qed.
Lemma sat_alloc : forall b n w (Q : bool -> world -> Prop),
  (forall ok w', w_ctx w' = w_ctx w -> Q ok w') -> sat U (alloc b n) w Q.
Proof.
  intros b n w Q H. unfold alloc. destruct cf_stack eqn:X.
  - apply sat_bind, sat_check; intros; [apply HU2; congruence|]. apply sat_bind, sat_emit, sat_ret. apply H. reflexivity.
  - apply sat_bind, sat_trace. cbv zeta. apply sat_bind, sat_emit, sat_ret. apply H. reflexivity.
Qed.
Lemma comp_th_next_sf : forall a b st m p, sf (comp_th_next a b st m p) true_of.
Proof.
  intros a b st m p. unfold comp_th_next. destruct (zlen p =? 0); [now apply ret_sf|].
  intros w Hw. apply sat_bind, sat_getc. destruct (negb _); [now apply ret_sf|]. cbv zeta.
  apply sat_bind, sat_alloc. intros ok w' Ew. rewrite <- Ew in Hw |- *. clear w Ew. revert w' Hw.
  destruct ok; cbn [negb]; [|now apply ret_sf].
  intros w Hw. apply sat_bind. unfold get_th. apply sat_bind, sat_getc. unfold rd.
  pose proof (gd_th _ Hw). pose proof (lm_mac HL).
  apply sat_bind, sat_check; intro; [lia|]. apply sat_ret.
  assert (L : zlen (enc_bstr (arr_read (c_th_len (w_ctx w)) (c_th (w_ctx w)))) = c_th_len (w_ctx w) + bstr_oh (c_th_len (w_ctx w)))
    by (rewrite bstr_len; rewrite zlen_arr_read; lia).
  set (t := arr_read _ _) in *. set (n := c_th_len (w_ctx w)) in *. clearbody t n. revert w Hw H H0 H1.
  enough (X : sf match fits (n + bstr_oh n + zlen p + zlen (mc_cred m)) (enc_bstr t) with
    | Some tb => check (zlen (tb ++ p ++ mc_cred m) <=? n + bstr_oh n + zlen p + zlen (mc_cred m)) UbWrite ;;;
       s <- get_suite ;; '(r, n0) <- hash_into_th (cs_hash s) (arr_read (n + bstr_oh n + zlen p + zlen (mc_cred m)) (tb ++ p ++ mc_cred m)) ;;
       free BTh ;;; (if negb (r =? OK) || st && negb (n0 =? cs_hash s) then ret E_CRYPTO else modify (set_th_state b) ;;; ret OK)
    | None => free BTh ;;; ret E_CBOR end true_of) by (intros; apply X; assumption).
  destruct (fits _ _) as [tb|] eqn:F; [|sgo]. apply fits_some in F. destruct F as [-> F].
  eapply bind_sf; [apply check_true; rewrite !zlen_app; lia|]. intros _ _. sgo.
Qed.
(** *** Received data *)
Lemma creds0_fit : creds_fit creds0.
Proof. unfold creds_fit, creds0. cbn. repeat split; discriminate || intro; try discriminate; repeat eexists; cbn; try discriminate. Qed.
Lemma chain_fit : forall c, creds_fit (snd (creds_of_chain c)).
Proof.
  intros [b|l]; unfold creds_of_chain; [|destruct (_ <? _); [exact creds0_fit|]]; unfold creds_fit; cbn;
    repeat split; intro X; try discriminate X; eexists; reflexivity.
Qed.
Lemma x5t_fit : forall c, creds_fit (snd (creds_of_x5t c)).
Proof.
  intros [[z|b] fp]; unfold creds_of_x5t; [|destruct (_ <? _); [exact creds0_fit|]]; unfold creds_fit; cbn;
    repeat split; intro X; try discriminate X; repeat eexists; reflexivity.
Qed.
Lemma parse_id_cred_sf : forall cw i, U UbKidWrite -> sf (parse_id_cred cw i) (fun x => creds_fit (snd x)).
Proof.
  intros cw i HU. unfold parse_id_cred. destruct i as [z|b|[a ch h]].
  - apply ret_sf. unfold creds_fit. cbn. pose proof (lm_kid HL). repeat split; intro X; try discriminate X. repeat eexists. change (0 <= cf_max_kid + 1). lia.
  - eapply bind_sf; [apply check_sf; right; exact HU|]. intros u0 L. cbn beta in L. apply ret_sf. unfold creds_fit. cbn.
    repeat split; intro X; try discriminate X. repeat eexists. lia.
  - destruct ch as [ch|], h as [h|].
    + pose proof (chain_fit ch). destruct (creds_of_chain ch) as [r cr]. cbn [snd] in *.
      destruct (negb _); [now apply ret_sf|]. destruct cw; [now apply ret_sf|]. apply ret_sf, x5t_fit.
    + apply ret_sf, chain_fit.
    + apply ret_sf, x5t_fit.
    + apply ret_sf, creds0_fit.
Qed.
Lemma ead_le3 : forall canon s ok l s', dec_ead canon s = (ok, l, s') -> zlen l <= 3.
Proof.
  intros canon s ok l s'. unfold dec_ead, multi. destruct (multi_loop _ _ _) as [l0 s0] eqn:X.
  apply multi_len in X. intros [= _ <- _]. unfold zlen. lia.
Qed.
Lemma ptxt2_le3 : forall canon p d, dec_plaintext_2 canon p = Some d -> zlen (pt_ead d) <= 3.
Proof.
  intros canon p d. unfold dec_plaintext_2. destruct (dec_cidv _ _) as [[c s1]|]; [|discriminate].
  destruct (dec_idv _ _) as [[i s2]|]; [|discriminate]. destruct (dec_bstr _ _) as [[sg s3]|]; [|discriminate].
  destruct (dec_ead _ _) as [[ok l] s4] eqn:X. apply ead_le3 in X. intros [= <-]. cbn [pt_ead].
  destruct ok; [exact X|cbn; lia].
Qed.
Lemma ptxt3_le3 : forall canon p d, dec_plaintext_3 canon p = Some d -> zlen (pt_ead d) <= 3.
Proof.
  intros canon p d. unfold dec_plaintext_3.
  destruct (dec_idv _ _) as [[i s2]|]; [|discriminate]. destruct (dec_bstr _ _) as [[sg s3]|]; [|discriminate].
  destruct (dec_ead _ _) as [[ok l] s4] eqn:X. apply ead_le3 in X. intros [= <-]. cbn [pt_ead].
  destruct ok; [exact X|cbn; lia].
Qed.
Lemma ptxt4_le3 : forall canon p, zlen (dec_plaintext_4 canon p) <= 3.
Proof.
  intros canon p. unfold dec_plaintext_4. destruct (dec_ead _ _) as [[ok l] s4] eqn:X. now apply ead_le3 in X.
Qed.
Section Recv.
Hypothesis HT1 : forall t, T t.
Lemma all_T : forall l, Forall T l.
Proof. intro l. apply Forall_forall. auto. Qed.
Lemma set_tokens_sf : forall l, zlen l <= 3 -> sf (modify (set_tokens l)) true_of.
Proof. intros l H. apply modify_sf. pose proof (all_T l). gd_mod. Qed.
Lemma store_tokens_sf : forall l, zlen l <= 3 -> sf (store_tokens l) true_of.
Proof.
  intros l H. unfold store_tokens. destruct (zlen l =? 0); [now apply ret_sf|]. pose proof (lm_ead HL).
  eapply bind_sf; [apply check_true; lia|]. intros _ _. now apply set_tokens_sf.
Qed.
Lemma store_peer_cid_sf : forall i, sf (store_peer_cid i) true_of.
Proof. intros i. unfold store_peer_cid. sgo. Qed.
Lemma parse_plaintext_2_sf : forall p, U UbKidWrite -> sf (parse_plaintext_2 p) (fun x => creds_fit (fst (snd x))).
Proof.
  intros p HU. unfold parse_plaintext_2. destruct (zlen p =? 0); [apply ret_sf, creds0_fit|].
  destruct (dec_plaintext_2 _ _) as [d|] eqn:D; [|apply ret_sf, creds0_fit]. apply ptxt2_le3 in D.
  eapply bind_sf; [apply store_peer_cid_sf|]. intros r _. destruct (negb _); [apply ret_sf, creds0_fit|].
  eapply bind_sf; [apply parse_id_cred_sf; exact HU|]. intros [r1 cr] H. cbn [snd] in H.
  destruct (negb _); [apply ret_sf, creds0_fit|].
  eapply bind_sf; [apply store_tokens_sf; exact D|]. intros _ _. apply ret_sf. exact H.
Qed.
Lemma parse_plaintext_3_sf : forall p, U UbKidWrite -> sf (parse_plaintext_3 p) (fun x => creds_fit (fst (snd x))).
Proof.
  intros p HU. unfold parse_plaintext_3. destruct (zlen p =? 0); [apply ret_sf, creds0_fit|].
  destruct (dec_plaintext_3 _ _) as [d|] eqn:D; [|apply ret_sf, creds0_fit]. apply ptxt3_le3 in D.
  eapply bind_sf; [apply parse_id_cred_sf; exact HU|]. intros [r1 cr] H. cbn [snd] in H.
  destruct (negb _); [apply ret_sf, creds0_fit|].
  eapply bind_sf; [apply store_tokens_sf; exact D|]. intros _ _. apply ret_sf. exact H.
Qed.
End Recv.
Lemma rd_ptr_sf : forall n p, (0 < n -> p = None -> U UbStrNull) ->
  (forall b, p = Some b -> zlen b < n -> U UbStrRead) -> sf (rd_ptr n p) (fun b => 0 <= n -> zlen b <= n).
Proof.
  intros n p H1 H2 w Hw. unfold rd_ptr. destruct (n <=? 0) eqn:N; [apply sat_ret; split; [intro; cbn; lia|exact Hw]|].
  destruct p as [b|].
  - apply sat_bind, sat_check; intro L; [apply (H2 b eq_refl); lia|]. apply sat_ret. split; [|exact Hw].
    intro. apply zlen_take_le. assumption.
  - cbn. apply H1; [lia|reflexivity].
Qed.
Lemma dec_m2_some : forall m z, dec_message_2 m = Some z -> exists b, zs_ptr z = Some b /\ zs_len z <= zlen b.
Proof.
  intros m z. unfold dec_message_2, dec_str_p. destruct (next_major _) as [mj|]; [|discriminate].
  destruct (mj =? 2); [|discriminate]. destruct (value_extract_raw _ _) as [[[x sh] s']|]; [|discriminate].
  destruct (_ && _); [discriminate|]. destruct (_ <? _) eqn:L; [discriminate|]. intros [= <-]. exists (d_rest s').
  cbn [zs_ptr zs_len]. split; [reflexivity|lia].
Qed.
Lemma comp_ctxt2_sf : forall m, sf (comp_ciphertext_2_len m) (fun x => 0 <= snd x /\
  forall z, dec_message_2 m = Some z -> snd x = size_sub (zs_len z) (cs_ecc (g_suite v))).
Proof.
  intro m. unfold comp_ciphertext_2_len. destruct (dec_message_2 m) as [z|]; [|apply ret_sf; cbn; split; [lia|discriminate]].
  eapply bind_sf; [apply get_suite_sf|]. intros s ->. apply ret_sf. cbn [snd]. split; [unfold size_sub; apply Z.mod_pos_bound; reflexivity|]. now intros z0 [= <-].
Qed.
Definition long2 (m : bytes) : Prop := forall z, dec_message_2 m = Some z -> cs_ecc (g_suite v) <= zs_len z < 2 ^ 64.
Lemma parse_msg_2_sf : forall m n, (forall z, dec_message_2 m = Some z -> cs_ecc (g_suite v) <= zs_len z /\ n + cs_ecc (g_suite v) = zs_len z) \/ U UbStrRead -> sf (parse_msg_2 m n) true_of.
Proof.
  intros m n HU. unfold parse_msg_2. destruct (dec_message_2 m) as [z|] eqn:D; [|now apply ret_sf].
  destruct (dec_m2_some _ _ D) as (b & P & Q). rewrite P.
  assert (HU1' : forall b0, Some b = Some b0 -> zlen b0 < cs_ecc (g_suite v) -> U UbStrRead).
  { intros b0 [= <-] L. destruct HU as [HU|HU]; [|exact HU]. destruct (HU z eq_refl). lia. }
  assert (HU2' : forall b0, Some (drop (cs_ecc (g_suite v)) b) = Some b0 -> zlen b0 < n -> U UbStrRead).
  { intros b0 [= <-] L. destruct HU as [HU|HU]; [|exact HU]. destruct (HU z eq_refl). rewrite zlen_drop in L by (pose proof szs; lia). lia. }
  eapply bind_sf; [apply get_suite_sf|]. intros s ->. pose proof szs as Z.
  eapply bind_sf; [apply modify_sf; gd_mod|]. intros _ _.
  eapply bind_sf; [apply rd_ptr_sf; [discriminate|auto]|]. cbn beta. intros g Hg.
  eapply bind_sf; [apply put_dh_peer_sf; lia|]. intros _ _.
  eapply bind_sf; [apply rd_ptr_sf; [discriminate|auto]|]. intros; now apply ret_sf.
Qed.
Lemma expand_part_sf : forall len lab n, 0 <= n -> sf (expand_part len lab n) true_of.
Proof. intros len lab n Hn. unfold expand_part. sgo. Qed.
Hint Resolve expand_part_sf : sfdb.
Lemma key_iv_aad_sf : forall a b n, sf (key_iv_aad a b n) true_of.
Proof. intros. unfold key_iv_aad. sgo. Qed.
Lemma key_iv_aad_3_sf : forall a b n, sf (comp_key_iv_aad_3 a b n) true_of.
Proof. pose proof key_iv_aad_sf. intros. unfold comp_key_iv_aad_3. sgo. Qed.
Lemma key_iv_aad_4_sf : forall a b n, sf (compute_key_iv_aad_4 a b n) true_of.
Proof. pose proof key_iv_aad_sf. intros. unfold compute_key_iv_aad_4. sgo. Qed.
Lemma aead_encrypt_sf : forall k i a p n, 0 <= n -> sf (aead_encrypt k i a p n) true_of.
Proof. intros. unfold aead_encrypt. sgo. Qed.
Lemma aead_decrypt_sf : forall k i a p n, 0 <= n -> sf (aead_decrypt k i a p n) true_of.
Proof. intros. unfold aead_decrypt. sgo. Qed.
Lemma comp_ciphertext_sf : forall k i a p n, 0 <= n -> sf (comp_ciphertext k i a p n) true_of.
Proof. intros. unfold comp_ciphertext. pose proof aead_encrypt_sf. sgo. Qed.
Lemma decrypt_ciphertext_3_sf : forall k i a p n, 0 <= n -> sf (decrypt_ciphertext_3 k i a p n) true_of.
Proof. intros. unfold decrypt_ciphertext_3. pose proof aead_decrypt_sf. sgo. Qed.
Lemma gen_msg_3_sf : forall c n, U UbMsg3Write -> sf (gen_msg_3 c n) true_of.
Proof.
  intros c n HU. unfold gen_msg_3. destruct (_ || _); [now apply ret_sf|]. destruct (fits _ _) as [m|]; [|now apply ret_sf].
  eapply bind_sf; [apply check_sf; right; exact HU|]. intros; now apply ret_sf.
Qed.
Lemma prepare_message_2_sf : forall c n, sf (prepare_message_2 c n) true_of.
Proof. intros. unfold prepare_message_2. sgo. Qed.
Lemma prepare_plaintext_4_sf : toks_safe -> forall n, sf (prepare_plaintext_4 n) true_of.
Proof.
  intros HT n. unfold prepare_plaintext_4. eapply bind_sf; [apply getc_sf|]. intros c Hc. cbv zeta.
  destruct (3 <? _); [now apply ret_sf|]. destruct (_ =? 0); [now apply ret_sf|].
  eapply bind_sf; [apply (encode_tokens_sf HT); [apply (gd_tok _ Hc)|apply (gd_tokn _ Hc)|auto]|].
  intros e _. destruct e; now apply ret_sf.
Qed.

(** *** Whole calls *)
Definition fin (c : ctx) : Prop :=
  exists st, good (set_status (g_st v) c) /\ c_status c = st /\ (st = g_st v \/ c_tokens c = [] /\ st <> SM_START).
Definition sx {A} (m : M A) : Prop := forall w, good (w_ctx w) -> sat U m w (fun _ w' => fin (w_ctx w')).
Lemma st_same : forall c, set_status (c_status c) c = c.
Proof. intros []; reflexivity. Qed.
Lemma good_fin : forall c, good c -> fin c.
Proof. intros c H. exists (c_status c). rewrite <- (gd_st _ H), st_same. auto. Qed.
Lemma sx_of : forall A (m : M A) P, sf m P -> sx m.
Proof. intros A m P H w Hw. eapply sat_conseq; [apply H; exact Hw|]. intros a w' [_ G]. now apply good_fin. Qed.
Lemma bind_sx : forall A B (m : M A) (k : A -> M B) P, sf m P -> (forall a, P a -> sx (k a)) -> sx (bind m k).
Proof.
  intros A B m k P H1 H2 w Hw. apply sat_bind. eapply sat_conseq; [apply H1; exact Hw|].
  intros a w' [Pa Gw]. apply H2; assumption.
Qed.
Lemma last_sx : forall A f (a : A), (forall c, good c -> fin (f c)) -> sx (modify f ;;; ret a).
Proof. intros A f a H w Hw. apply sat_bind, sat_modify, sat_ret. exact (H _ Hw). Qed.

Lemma sx_ret : forall A (a : A), sx (ret a).
Proof. intros. apply sx_of with (P := true_of). now apply ret_sf. Qed.
Lemma sx_fail : forall l r, sx (fail l r).
Proof. intros. apply sx_of with (P := true_of). now apply fail_sf. Qed.
Lemma sx_failp : forall l r, sx (failp l r).
Proof. intros. apply sx_of with (P := true_of). now apply failp_sf. Qed.
Ltac pass := cbn beta iota zeta;
  match goal with |- sx (if negb (?r =? OK) then _ else _) =>
    let R := fresh "R" in destruct (r =? OK) eqn:R; cbn [negb];
    [apply Z.eqb_eq in R; repeat match goal with H : ?x = OK -> _ |- _ => specialize (H R) end; cbn [fst snd] in *
    |solve [repeat first [apply sx_ret | apply sx_fail | apply sx_failp
       | eapply bind_sx; [solve [eauto 3 with sfdb nocore | apply modify_sf; gd_mod]|]; intros _ _]]]
  | |- sx (if negb ?ok then _ else _) => destruct ok; cbn [negb];
     [|solve [repeat first [apply sx_ret | apply sx_fail | apply sx_failp]]]
  end.
Ltac step L := eapply bind_sx; [apply L|]; cbn beta; cbn [fst snd].
Ltac skip L := step L; intros _ _.
Ltac last_ := apply last_sx; let c := fresh in let H := fresh in intros c H; eexists; split; [|split; [reflexivity|right; split; [reflexivity|discriminate]]];
  destruct H; constructor; cbn in *; auto; lia.
Hint Resolve frees_sf : sfdb.

Lemma msize : 0 <= mac_size /\ 0 <= sig_size.
Proof. pose proof szs. unfold mac_size, sig_size. destruct (signs _ _) as [[]|]; lia. Qed.

Definition entered (msg role : Z) (c : ctx) : ctx :=
  set_role role (set_message msg (set_error EC_UNSPECIFIED (set_status SM_ABORTED c))).
Definition ends {A} (m : M A) (w : world) : Prop :=
  sat U m w (fun _ w' => w_ctx w' = w_ctx w \/ fin (w_ctx w')).
Lemma enter_sx : forall A msg role (k : M A) w, good (entered msg role (w_ctx w)) -> sx k -> ends (enter msg role ;;; k) w.
Proof.
  intros A msg role k w Hg Hk. unfold ends, enter. apply sat_bind, sat_modify. eapply sat_conseq; [apply Hk; exact Hg|].
  intros a w' H. now right.
Qed.
Ltac open_ := unfold ends; destruct (_ || _); [apply sat_ret; now left|];
  apply sat_bind, sat_getc; destruct (negb _); [apply sat_ret; now left|].
Ltac alt := match goal with |- sx (if ?b then _ else _) => destruct b end.
Section Send.
Hypothesis HT' : forall t, tok_fits t -> T t.
Lemma m2c_sx : toks_safe -> forall nn size w, good (entered MSG_2 RESPONDER (w_ctx w)) -> ends (message_2_compose nn size) w.
Proof.
  intros HT nn size w Hg. unfold message_2_compose. open_. apply (enter_sx _ _ _ _ _ Hg). clear Hg. pose proof msize as [MS SS].
  step gen_dh_keys_sf. intros r _. pass. step comp_dh_secret_sf. intros r0 _. pass. step comp_th_2_sf. intros r1 _. pass.
  step comp_prk_2e_sf. intros r2 _. pass. step getc_sf. intros c1 _. step alloc_sf. intros ok _. pass.
  step get_prk_sf. intros prk _. step fetch_sf. intros [r3 cr] H. pass.
  step (ead_compose_sf HT'). intros ok _. pass. step comp_prk_3e2m_sf. intros r4 _. pass.
  step (comp_mac_context_length_sf _ H). intros [r5 ml] _. pass. step alloc_sf. intros ok _. pass.
  step (comp_mac_context_sf _ H HT). intros [r6 m] _. pass.
  step comp_mac_length_sf. intros [r7 n] Hn. pass. subst n. step alloc_sf. intros ok _. pass.
  step (comp_mac_sf m _ MS). intros [r8 mac] Hm. pass.
  step comp_sign_or_mac_length_sf. intros [r9 sl] Hs. pass. subst sl. step alloc_sf. intros ok _. pass.
  step (comp_sign_or_mac_sf cr m mac Hm). intros [r10 sg] _. skip free_sf. pass.
  step comp_plaintext_len_sf. intros [r11 pl] Hp. pass. subst pl. step alloc_sf. intros ok _. pass.
  step prepare_plaintext_2_sf. intros [r12 ptxt] _. skip free_sf. pass. step alloc_sf. intros ok _. pass.
  step comp_keystream_sf; [apply zlen_nonneg|]. intros [r13 ks] _. skip free_sf. pass.
  step comp_th_next_sf. intros r14 _. skip free_sf. pass. cbv zeta. skip free_sf.
  step prepare_message_2_sf. intros [r15 msg] _. pass. skip free_sf. last_.
Qed.
Lemma m3c_sx : toks_safe -> forall nn size w, U UbMsg3Write -> good (entered MSG_3 INITIATOR (w_ctx w)) -> ends (message_3_compose nn size) w.
Proof.
  intros HT nn size w HU Hg. unfold message_3_compose. open_. apply (enter_sx _ _ _ _ _ Hg). clear Hg. pose proof msize as [MS SS].
  pose proof szs as Z0. step get_suite_sf. intros s ->. step (ead_compose_sf HT'). intros ok _. pass. step fetch_sf. intros [r3 cr] H. pass.
  step alloc_sf. intros ok _. pass. step alloc_sf. intros ok _. pass. cbv zeta. step alloc_sf. intros ok _. pass.
  step key_iv_aad_3_sf. intros [r4 [[key iv] aad]] _. pass. step comp_prk_4e3m_sf. intros r5 _. pass.
  step (comp_mac_context_length_sf _ H). intros [r6 ml] _. pass. step alloc_sf. intros ok _. pass.
  step (comp_mac_context_sf _ H HT). intros [r7 m] _. pass.
  step comp_mac_length_sf. intros [r8 n] Hn. pass. subst n. step alloc_sf. intros ok _. pass.
  step (comp_mac_sf m _ MS). intros [r9 mac] Hm. pass.
  step comp_sign_or_mac_length_sf. intros [r10 sl] Hs. pass. subst sl. step alloc_sf. intros ok _. pass.
  step (comp_sign_or_mac_sf cr m mac Hm). intros [r11 sg] _. skip free_sf. pass.
  step comp_plaintext_len_sf. intros [r12 pl] Hp. pass. subst pl. step alloc_sf. intros ok _. pass.
  step prepare_plaintext_3_sf. intros [r13 ptxt] _. skip free_sf. pass. step alloc_sf. intros ok _. pass.
  pose proof (zlen_nonneg _ ptxt). step comp_ciphertext_sf; [lia|]. intros [r14 ct] _. skip frees_sf. pass.
  step comp_th_next_sf. intros r15 _. skip frees_sf. pass. step (gen_msg_3_sf ct size HU). intros [r16 msg] _. skip free_sf. pass. last_.
Qed.
Hypothesis HT2 : forall t, T t -> tok_fits t.
Lemma ead_len_pos : forall l, Forall T l -> 0 <= ead_len_of l.
Proof.
  unfold ead_len_of. induction l as [|t l IH]; intro H; [cbn; lia|]. inversion H as [|? ? H1 H2]; subst. specialize (IH H2).
  unfold zsum in *. cbn [map fold_right]. pose proof (imr_pos (tk_label t)). pose proof (oh_pos (zs_len (tk_val t))). specialize (HT2 _ H1).
  unfold tok_fits in HT2. destruct (zs_ptr (tk_val t)); lia.
Qed.
Lemma m4c_sx : toks_safe -> forall nn size w, good (entered MSG_4 RESPONDER (w_ctx w)) -> ends (message_4_compose nn size) w.
Proof.
  intros HT nn size w Hg. unfold message_4_compose. open_. apply (enter_sx _ _ _ _ _ Hg). clear Hg.
  pose proof szs as Z0. step get_suite_sf. intros s ->. step (ead_compose_sf HT'). intros ok _. pass.
  step getc_sf. intros c1 Hc1. cbv zeta. step alloc_sf. intros ok _. pass.
  step (prepare_plaintext_4_sf HT). intros [r ptxt] _. pass.
  step alloc_sf. intros ok _. pass. step alloc_sf. intros ok _. pass. step alloc_sf. intros ok _. pass.
  step key_iv_aad_4_sf. intros [r4 [[key iv] aad]] _. pass. step alloc_sf. intros ok _. pass.
  pose proof (ead_len_pos _ (gd_tok _ Hc1)). step aead_encrypt_sf; [lia|].
  intros [r5 ct] _. pass. skip frees_sf. destruct (gen_msg_4 ct size) as [r6 msg]. pass. skip free_sf. last_.
Qed.
Definition early (c c' : ctx) (role : Z) : Prop :=
  c' = c \/ c' = entered MSG_1 role c \/ c' = set_csuite_idx (c_csuite_len c - 1) (entered MSG_1 role c).
Lemma m1c_sx : toks_safe -> forall nn size w,
  good (set_chosen_method (nth 0 (c_methods (w_ctx w)) 0) (set_csuite_idx (c_csuite_len (w_ctx w) - 1) (entered MSG_1 INITIATOR (w_ctx w)))) ->
  sat U (message_1_compose nn size) w (fun _ w' => early (w_ctx w) (w_ctx w') INITIATOR \/ fin (w_ctx w')).
Proof.
  intros HT nn size w Hg. unfold message_1_compose, early. destruct (_ || _); [apply sat_ret; auto|].
  apply sat_bind, sat_getc; destruct (negb _); [apply sat_ret; auto|]. unfold enter. apply sat_bind, sat_modify.
  destruct (_ =? 0); [apply sat_ret; auto|]. apply sat_bind, sat_modify. unfold get_suite.
  apply sat_bind, sat_bind, sat_getc. apply sat_bind, sat_check; intro G; [pose proof (gd_idx _ Hg) as G'; cbn in G, G'; congruence|].
  apply sat_ret. pose proof (gd_suite _ Hg) as G'. match goal with |- context [the_suite ?x] => change (the_suite x = g_suite v) in G'; rewrite G' end.
  apply sat_bind, sat_modify. set (w1 := Wd _ _). assert (Hg1 : good (w_ctx w1)) by exact Hg. clearbody w1. clear Hg G G'.
  set (c := w_ctx w) in *. clearbody c. clear w.
  match goal with |- sat U ?m _ _ => enough (HX : sx m) by (eapply sat_conseq; [apply HX; exact Hg1|]; intros; now right) end.
  clear Hg1 w1. pose proof szs as Z0. pose proof (lm_ecc HL).
  step import_sf. intros [r kid] _. pass. step alloc_sf. intros ok _. pass.
  step mkpair_sf; [lia|lia|]. intros [[r1 priv] pub] [P1 P2]. cbn [fst snd] in *.
  step put_dh_priv_sf; [lia|]. intros _ _. skip destroy_sf.
  alt; [skip free_sf; apply sx_ret|].
  eapply bind_sx; [apply modify_sf; pose proof (zlen_nonneg _ priv); gd_mod|]. intros _ _.
  alt; [skip free_sf; apply sx_ret|]. cbv zeta. alt; [skip free_sf; apply sx_ret|].
  step (ead_compose_sf HT'). intros ok _. destruct ok; cbn [negb]; [|skip free_sf; apply sx_ret].
  step getc_sf. intros c2 Hc2. eapply bind_sx; [apply check_true; pose proof (gd_tokn _ Hc2); lia|]. intros _ _.
  apply bind_sx with (P := true_of).
  { destruct (enc_message_1 _ _ _ _ _) as [pre|]; [|now apply ret_sf]. destruct (_ =? 0); [now apply ret_sf|].
    eapply bind_sf; [apply (encode_tokens_sf HT); [apply (gd_tok _ Hc2)|apply (gd_tokn _ Hc2)|auto]|]. intros; now apply ret_sf. }
  intros enc _. destruct enc as [msg|]; [|skip free_sf; apply sx_ret]. skip free_sf.
  step hash_into_th_sf; [lia|]. intros [r2 n] _. alt; [apply sx_ret|]. last_.
Qed.
End Send.
Section Take.
Hypothesis HT1 : forall t, T t.
Lemma m2p_sx : toks_safe -> forall nn msg w, long2 msg \/ U UbStrRead -> U UbKidWrite -> good (entered MSG_2 INITIATOR (w_ctx w)) -> ends (message_2_process nn msg) w.
Proof.
  intros HT nn msg w HU HK Hg. unfold message_2_process. open_. apply (enter_sx _ _ _ _ _ Hg). clear Hg. pose proof msize as [MS SS].
  step (comp_ctxt2_sf msg). intros [r cl] [Hcl HZ]. cbn [snd] in Hcl, HZ. pass. step alloc_sf. intros ok _. pass.
  assert (HU' : (forall z, dec_message_2 msg = Some z -> cs_ecc (g_suite v) <= zs_len z /\ cl + cs_ecc (g_suite v) = zs_len z) \/ U UbStrRead).
  { destruct HU as [HU|HU]; [left|now right]. intros z D. pose proof (HU z D) as L. rewrite (HZ z D). unfold size_sub.
    pose proof szs as SZ. rewrite Z.mod_small by lia. lia. }
  step (parse_msg_2_sf msg cl HU'). intros [r0 ct] _. pass. step comp_dh_secret_sf. intros r1 _. pass.
  step comp_th_2_sf. intros r2 _. pass. step comp_prk_2e_sf. intros r3 _. pass. step alloc_sf. intros ok _. pass.
  step get_prk_sf. intros prk _. step (comp_keystream_sf prk cl Hcl). intros [r4 ks] _. pass. cbv zeta. skip free_sf.
  step (parse_plaintext_2_sf HT1 (xor_bytes ct ks) HK). intros [r5 [cr sig]] H. cbn [fst snd] in H. pass.
  step getc_sf. intros c2 _. destruct (negb _); [apply sx_failp|]. step ead_process_sf. intros ok _. pass.
  step (cverify_sf cr H). intros [[r6 cr'] pub] H'. cbn [fst snd] in H'. pass.
  step comp_prk_3e2m_sf. intros r7 _. pass.
  step (comp_mac_context_length_sf _ H'). intros [r8 ml] _. pass. step alloc_sf. intros ok _. pass.
  step (comp_mac_context_sf _ H' HT). intros [r9 m] _. pass.
  step comp_mac_length_sf. intros [r10 n] Hn. pass. subst n. step alloc_sf. intros ok _. pass.
  step (comp_mac_sf m _ MS). intros [r11 mac] Hm. pass. step verify_sign_or_mac_sf. intros r12 _. skip free_sf. pass.
  step comp_th_next_sf. intros r13 _. skip frees_sf. pass. last_.
Qed.
Lemma m3p_sx : toks_safe -> forall nn msg w, U UbKidWrite -> good (entered MSG_3 RESPONDER (w_ctx w)) -> ends (message_3_process nn msg) w.
Proof.
  intros HT nn msg w HK Hg. unfold message_3_process. open_. apply (enter_sx _ _ _ _ _ Hg). clear Hg. pose proof msize as [MS SS].
  step get_suite_sf. intros s ->. destruct (dec_one_bstr cf_canon msg) as [ct|]; [|apply sx_ret].
  step alloc_sf. intros ok _. pass. step alloc_sf. intros ok _. pass. cbv zeta. step alloc_sf. intros ok _. pass.
  step key_iv_aad_3_sf. intros [r4 [[key iv] aad]] _. pass. step alloc_sf. intros ok _. pass.
  step decrypt_ciphertext_3_sf; [unfold size_sub; apply Z.mod_pos_bound; reflexivity|]. intros [r5 ptxt] _. skip frees_sf. pass.
  step (parse_plaintext_3_sf HT1 ptxt HK). intros [r6 [cr sig]] H. cbn [fst snd] in H. pass.
  step ead_process_sf. intros ok _. pass.
  step (cverify_sf cr H). intros [[r7 cr'] pub] H'. cbn [fst snd] in H'. pass.
  step comp_prk_4e3m_sf. intros r8 _. pass.
  step (comp_mac_context_length_sf _ H'). intros [r9 ml] _. pass. step alloc_sf. intros ok _. pass.
  step (comp_mac_context_sf _ H' HT). intros [r10 m] _. pass.
  step comp_mac_length_sf. intros [r11 n] Hn. pass. subst n. step alloc_sf. intros ok _. pass.
  step (comp_mac_sf m _ MS). intros [r12 mac] Hm. pass. step verify_sign_or_mac_sf. intros r13 _. skip free_sf. pass.
  step comp_th_next_sf. intros r14 _. skip frees_sf. pass. last_.
Qed.
Lemma m4p_sx : forall nn msg w, good (entered MSG_4 INITIATOR (w_ctx w)) -> ends (message_4_process nn msg) w.
Proof.
  intros nn msg w Hg. unfold message_4_process. open_. apply (enter_sx _ _ _ _ _ Hg). clear Hg.
  step get_suite_sf. intros s ->. destruct (dec_one_bstr cf_canon msg) as [ct|]; [|apply sx_ret].
  step alloc_sf. intros ok _. pass. step alloc_sf. intros ok _. pass. cbv zeta. step alloc_sf. intros ok _. pass.
  step key_iv_aad_4_sf. intros [r4 [[key iv] aad]] _. pass. step alloc_sf. intros ok _. pass.
  step aead_decrypt_sf; [unfold size_sub; apply Z.mod_pos_bound; reflexivity|]. intros [r5 ptxt] _. pass. skip frees_sf.
  pose proof (ptxt4_le3 cf_canon ptxt) as L3. pose proof (lm_ead HL).
  eapply bind_sx; [apply check_true; lia|]. intros _ _. step (set_tokens_sf HT1 _ L3). intros _ _.
  step ead_process_sf. intros ok _. pass. skip free_sf. last_.
Qed.
End Take.

Section None.
Hypothesis HTF : forall t, T t -> False.
Lemma no_toks : forall c, good c -> c_tokens c = [].
Proof. intros c H. pose proof (gd_tok _ H) as X. destruct (c_tokens c) as [|t l]; [reflexivity|]. inversion X; subst. exfalso. eauto. Qed.
Definition whole1 (m : bytes) : Prop := fst (fst (dec_message_1 cf_canon m)) = true.
Definition rdok (z : zstr) : Prop := (0 < zs_len z -> zs_ptr z = None -> U UbStrNull) /\
  (forall b, zs_ptr z = Some b -> zlen b < zs_len z -> U UbStrRead).
Lemma str_p_rdok : forall s z s', dec_str_p cf_canon 2 zstr0 s = (true, z, s') -> rdok z.
Proof.
  intros s z s'. unfold dec_str_p. destruct (next_major s); [|discriminate]. destruct (_ =? _); [|discriminate].
  destruct (value_extract_raw _ _) as [[[x sh] s3]|]; [|discriminate]. destruct (_ && _); [discriminate|].
  destruct (_ <? _) eqn:L; [discriminate|]. intros [= <- _]. split; cbn [zs_ptr zs_len]; [discriminate|]. intros b [= <-] Q. lia.
Qed.
Lemma zstr0_rdok : rdok zstr0.
Proof. split; cbn [zs_ptr zs_len zstr0]; [lia|discriminate]. Qed.
Lemma whole1_rdok : forall m, whole1 m \/ U UbStrNull /\ U UbStrRead ->
  rdok (m1_gx (snd (fst (dec_message_1 cf_canon m)))) /\ rdok (m1_ci_bstr (snd (fst (dec_message_1 cf_canon m)))).
Proof.
  intros m [H|[H1 H2]]; [|split; split; auto]. unfold whole1, dec_message_1 in *. cbv zeta in *.
  destruct (dec_int32 _ _) as [[meth s1]|]; [|discriminate H]. destruct (dec_suites_p _ _) as [su s2].
  destruct (sr_ok su); cbn [negb] in *; [|discriminate H].
  destruct (dec_str_p _ _ _ s2) as [[ok gx] s3] eqn:D. destruct ok; [|discriminate H].
  pose proof (str_p_rdok _ _ _ D) as R. destruct (dec_str_p _ _ _ s3) as [[ok ci] s4] eqn:D2. destruct ok.
  - destruct (dec_ead _ _) as [[ok l] s5]. cbn [fst snd m1_gx m1_ci_bstr]. split; [exact R|]. exact (str_p_rdok _ _ _ D2).
  - destruct (dec_int32 _ _) as [[x s5]|]; [|discriminate H]. destruct (_ && _); [|discriminate H].
    destruct (dec_ead _ _) as [[ok l] s6]. cbn [fst snd m1_gx m1_ci_bstr]. split; [exact R|exact zstr0_rdok].
Qed.
Lemma m1p_sx : forall nn msg w, g_st v <> SM_START -> whole1 msg \/ U UbStrNull /\ U UbStrRead ->
  (c_status (w_ctx w) = SM_START -> c_peer_csuite_len (w_ctx w) < cf_max_suites) ->
  g_meth v = m1_method (snd (fst (dec_message_1 cf_canon msg))) ->
  good (set_chosen_method (g_meth v) (set_csuite_idx (c_csuite_len (w_ctx w) - 1) (entered MSG_1 RESPONDER (w_ctx w)))) ->
  sat U (message_1_process nn msg) w (fun _ w' => early (w_ctx w) (w_ctx w') RESPONDER \/ fin (w_ctx w')).
Proof.
  intros nn msg w Hst HW Hlen Hmeth Hg. pose proof (whole1_rdok msg HW) as [RG RC]. unfold message_1_process, early. destruct (_ || _); [apply sat_ret; auto|].
  apply sat_bind, sat_getc. destruct (in_state _ _ _ _) eqn:IS; cbn [negb]; [|apply sat_ret; auto].
  unfold in_state in IS. apply andb_prop in IS. destruct IS as [IS _]. apply andb_prop in IS. destruct IS as [IS _].
  apply Z.eqb_eq in IS. specialize (Hlen IS). clear IS.
  unfold enter. apply sat_bind, sat_modify. destruct (dec_message_1 cf_canon msg) as [[dok d] rest]. cbn [fst snd] in Hmeth, RG, RC. cbv zeta.
  match goal with |- sat U (if ?b then _ else _) _ _ => destruct b end; [apply sat_ret; auto|].
  match goal with |- sat U (if ?b then _ else _) _ _ => destruct b end; [apply sat_ret; auto|].
  apply sat_bind, sat_modify. unfold get_suite.
  apply sat_bind, sat_bind, sat_getc. apply sat_bind, sat_check; intro G; [pose proof (gd_idx _ Hg) as G'; cbn in G, G'; congruence|].
  apply sat_ret. pose proof (gd_suite _ Hg) as G'. match goal with |- context [the_suite ?x] => change (the_suite x = g_suite v) in G'; rewrite G' end.
  match goal with |- sat U (if ?b then _ else _) _ _ => destruct b end; [apply sat_ret; auto|].
  apply sat_bind, sat_modify. set (w1 := Wd _ _). assert (Hg1 : good (w_ctx w1)) by (unfold w1; rewrite <- Hmeth; exact Hg). clearbody w1. clear Hg G G'.
  set (c := w_ctx w) in *. clearbody c. clear w.
  match goal with |- sat U ?m _ _ => enough (HX : sx m) by (eapply sat_conseq; [apply HX; exact Hg1|]; intros; now right) end.
  clear Hg1 w1 Hmeth. pose proof szs as Z0. pose proof (lm_ecc HL).
  apply bind_sx with (P := true_of).
  { destruct (_ =? 1).
    - eapply bind_sf; [apply check_true; lia|]. intros _ _. eapply bind_sf; [apply modify_sf; gd_mod|]. intros _ _. sgo.
    - sgo. }
  intros r _. pass. destruct (zs_len (m1_gx d) =? cs_ecc (g_suite v)) eqn:GL; cbn [negb]; [|apply sx_ret]. apply Z.eqb_eq in GL.
  eapply bind_sx; [apply modify_sf; gd_mod|]. intros _ _.
  step rd_ptr_sf; [rewrite <- GL; apply (proj1 RG)|rewrite <- GL; apply (proj2 RG)|]. intros gx Hx. step put_dh_peer_sf; [lia|]. intros _ _.
  apply bind_sx with (P := true_of).
  { destruct (_ =? 1); [sgo|]. destruct (_ =? 0); [|now apply ret_sf]. destruct (_ <? _); [now apply ret_sf|].
    eapply bind_sf; [apply rd_ptr_sf; [apply (proj1 RC)|apply (proj2 RC)]|]. intros b _. sgo. }
  intros r1 _. pass. apply bind_sx with (P := true_of).
  { destruct (if m1_ead_present d then _ else _) as [f|]; [|now apply ret_sf]. destruct (_ <? _); [now apply ret_sf|].
    intros w Hw. apply sat_bind, sat_modify. unfold call_process. apply sat_bind, sat_bind, sat_trace. cbv zeta.
    apply sat_bind, sat_emit, sat_ret, sat_bind, sat_modify. cbn [w_ctx].
    assert (good (set_tokens [] (set_tokens (m1_ead d) (w_ctx w)))) by (destruct Hw; constructor; cbn; auto; lia).
    destruct (negb _); apply sat_ret; (split; [exact I|assumption]). }
  intros r2 _. pass. step hash_into_th_sf; [lia|]. intros [r3 n] _. alt; [apply sx_ret|].
  apply last_sx. intros c0 H0. exists SM_RECEIVED_M1. pose proof (no_toks _ H0) as Ht.
  split; [|split; [reflexivity|right; split; [exact Ht|discriminate]]]. destruct H0. constructor; cbn in *; auto; lia.
Qed.
End None.

(** *** Exports *)
Lemma kdf_into_prk_sf : forall len lab cx P, sf cx P -> sf (kdf_into_prk len lab cx) true_of.
Proof.
  intros len lab cx P Hc. apply triv_sf in Hc. unfold kdf_into_prk.
  eapply bind_sf; [apply get_suite_sf|]. intros s ->. eapply bind_sf; [apply alloc_sf|]. intros ok _.
  destruct ok; cbn [negb]; [|now apply ret_sf]. eapply bind_sf; [exact Hc|]. intros c0 _.
  destruct (fits _ _) as [info|]; [|sgo]. eapply bind_sf; [apply get_prk_sf|]. intros k _.
  eapply bind_sf; [apply import_sf|]. intros [r kid] _. destruct (negb _); [sgo|].
  eapply bind_sf; [apply getc_sf|]. intros c Hg. pose proof (gd_prk _ Hg).
  eapply bind_sf; [apply expand_sf; lia|]. intros [r1 out] Ho. cbn [snd] in Ho.
  eapply bind_sf; [apply put_prk_sf; lia|]. intros _ _. sgo.
Qed.
Lemma compute_prk_out_sf : sf compute_prk_out true_of.
Proof.
  unfold compute_prk_out. eapply bind_sf; [apply getc_sf|]. intros c _. destruct (_ || _); [now apply ret_sf|].
  eapply bind_sf; [apply get_suite_sf|]. intros s ->. eapply kdf_into_prk_sf, get_th_sf.
Qed.
Lemma compute_new_prk_out_sf : forall e, sf (compute_new_prk_out e) true_of.
Proof.
  intro e. unfold compute_new_prk_out. eapply bind_sf; [apply getc_sf|]. intros c _. destruct (negb _); [now apply ret_sf|].
  eapply bind_sf; [apply get_suite_sf|]. intros s ->. apply kdf_into_prk_sf with (P := true_of). now apply ret_sf.
Qed.
Lemma compute_prk_exporter_sf : forall n, 0 <= n -> sf (compute_prk_exporter n) true_of.
Proof.
  intros n Hn. unfold compute_prk_exporter. eapply bind_sf; [apply getc_sf|]. intros c _. destruct (negb _); [now apply ret_sf|].
  eapply bind_sf; [apply get_suite_sf|]. intros s ->. apply kdf_sf with (P1 := true_of) (P2 := true_of); [exact Hn|now apply ret_sf|apply get_prk_sf].
Qed.
Lemma export_sf : forall nn l n, 0 <= n -> sf (export_prk_exporter nn l n) true_of.
Proof.
  intros nn l n Hn. unfold export_prk_exporter. destruct (_ || _); [now apply ret_sf|]. destruct (negb _); [now apply ret_sf|].
  eapply bind_sf; [apply getc_sf|]. intros c _. destruct (_ || _); [now apply ret_sf|].
  eapply bind_sf; [apply get_suite_sf|]. intros s ->. pose proof szs as Z0.
  apply bind_sf with (P := true_of); [destruct (_ =? _); [apply compute_prk_out_sf|now apply ret_sf]|]. intros r _.
  destruct (negb _); [now apply ret_sf|]. eapply bind_sf; [apply alloc_sf|]. intros ok _.
  destruct ok; cbn [negb]; [|now apply ret_sf].
  eapply bind_sf; [apply compute_prk_exporter_sf; lia|]. intros [r1 pe] _. sgo.
Qed.
Lemma key_update_sx : forall nn e w, good (set_status SM_ABORTED (w_ctx w)) ->
  (SM_COMPLETED <= c_status (w_ctx w) -> forall t, T t -> False) -> ends (export_key_update nn e) w.
Proof.
  intros nn e w Hg HF. unfold export_key_update, ends. destruct (_ || _); [apply sat_ret; now left|].
  apply sat_bind, sat_getc. destruct (c_status (w_ctx w) <? SM_COMPLETED) eqn:L; cbn [orb]; [apply sat_ret; now left|].
  match goal with |- sat U (if ?b then _ else _) _ _ => destruct b end; [apply sat_ret; now left|]. apply Z.ltb_ge in L. specialize (HF L). apply Z.le_ngt in L.
  apply sat_bind, sat_modify. set (w1 := Wd _ _). assert (Hg1 : good (w_ctx w1)) by exact Hg. clearbody w1. clear Hg.
  set (c := w_ctx w) in *. clearbody c. clear w.
  match goal with |- sat U ?m _ _ => enough (HX : sx m) by (eapply sat_conseq; [apply HX; exact Hg1|]; intros; now right) end.
  clear Hg1 w1.
  apply bind_sx with (P := true_of); [destruct (_ =? _); [apply compute_prk_out_sf|now apply ret_sf]|]. intros r _. pass.
  step compute_new_prk_out_sf. intros r1 _. pass. apply last_sx. intros c0 H0. exists (c_status c). pose proof (no_toks HF _ H0) as Ht.
  split; [|split; [reflexivity|right; split; [exact Ht|intro X0; apply L; rewrite X0; reflexivity]]]. destruct H0. constructor; cbn in *; auto; lia.
Qed.
Lemma oscore_sx : forall nn a b x y w, 0 <= a -> 0 <= b -> good (set_oscore_ok false (set_status SM_ABORTED (w_ctx w))) ->
  (SM_COMPLETED <= c_status (w_ctx w) -> forall t, T t -> False) -> ends (export_oscore_session nn a b x y) w.
Proof.
  intros nn a b x y w Ha Hb Hg HF. unfold export_oscore_session, ends. destruct (_ || _); [apply sat_ret; now left|].
  apply sat_bind, sat_getc. destruct (negb _); [apply sat_ret; now left|].
  destruct (c_status (w_ctx w) <? SM_COMPLETED) eqn:L; cbn [orb]; [apply sat_ret; now left|].
  match goal with |- sat U (if ?b then _ else _) _ _ => destruct b end; [apply sat_ret; now left|]. apply Z.ltb_ge in L. specialize (HF L). apply Z.le_ngt in L.
  apply sat_bind, sat_modify. set (w1 := Wd _ _). assert (Hg1 : good (w_ctx w1)) by exact Hg. clearbody w1. clear Hg.
  set (c := w_ctx w) in *. clearbody c. clear w.
  match goal with |- sat U ?m _ _ => enough (HX : sx m) by (eapply sat_conseq; [apply HX; exact Hg1|]; intros; now right) end.
  clear Hg1 w1.
  step export_sf; [exact Ha|]. intros [r sec] _. pass. step export_sf; [exact Hb|]. intros [r1 salt] _. pass.
  destruct (oscore_id _ _) as [r2 sid]. pass. destruct (oscore_id _ _) as [r3 rid]. pass.
  apply last_sx. intros c0 H0. exists (c_status c). pose proof (no_toks HF _ H0) as Ht.
  split; [|split; [reflexivity|right; split; [exact Ht|intro X0; apply L; rewrite X0; reflexivity]]]. destruct H0. constructor; cbn in *; auto; lia.
Qed.
End Safe.
