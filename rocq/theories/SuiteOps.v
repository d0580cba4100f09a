(** What the operations of the classic suites compute. *)
From Verif Require Import Bytes Facts Values Monad Psa SuiteX SuiteW SuiteCalls SuiteSpec SuiteLogic SuiteProofs SuiteStore.

Lemma hash_eqb_ok a b : hash_eqb a b = true -> a = b.
Proof. destruct a, b; cbn; congruence. Qed.
Lemma alg_eqb_ok a b : alg_eqb a b = true -> a = b.
Proof.
  destruct a, b; cbn; try congruence; intros H; try (apply hash_eqb_ok in H; congruence).
  apply andb_true_iff in H. destruct H as [H1 H2]. apply Z.eqb_eq in H2. destruct a, a0; cbn in H1; congruence.
Qed.
Lemma alg_eqb_refl a : alg_eqb a a = true.
Proof. destruct a; cbn; try reflexivity; try (destruct h; reflexivity). rewrite Z.eqb_refl. now destruct a. Qed.

Ltac x_simp :=
  cbn [x_op x_keys x_pk x_slots x_log log set_op set_keys set_pk set_slots Psa.d_alg Psa.d_salt Psa.d_key Psa.d_info Psa.d_cap] in *.
Ltac x_clean :=
  repeat (x_simp; subst; match goal with
    | H : Some _ = Some _ |- _ => injection H; clear H; intros
    | H : AlgExtract _ = AlgExtract _ |- _ => injection H; clear H; intros
    | H : AlgExpand _ = AlgExpand _ |- _ => injection H; clear H; intros
    | H : AlgAead _ _ = AlgAead _ _ |- _ => injection H; clear H; intros
    | H : AlgEcdsa _ = AlgEcdsa _ |- _ => injection H; clear H; intros
    | H : Kdf _ _ _ _ _ = Kdf _ _ _ _ _ |- _ => injection H; clear H; intros
    | H : None = Some _ |- _ => discriminate H
    | H : Some _ = None |- _ => discriminate H
    | H : AlgExtract _ = AlgExpand _ |- _ => discriminate H
    | H : AlgExpand _ = AlgExtract _ |- _ => discriminate H
    | H : ?a = Some ?x, K : ?a = Some ?y |- _ => assert (x = y) by congruence; clear K; subst
    | H : _ && _ = true |- _ => apply andb_true_iff in H; destruct H
    | H : _ || _ = false |- _ => apply orb_false_iff in H; destruct H
    | H : negb _ = false |- _ => apply negb_false_iff in H
    | H : alg_eqb _ _ = true |- _ => apply alg_eqb_ok in H
    end).
Ltac op_start := wp_start; unfold hrun, out1, outk; wp_go; try exact I; cbn [ho_ret ho_1 ho_2]; intros G; try discriminate G; clear G; x_clean.

Section Ops.
Context {L : libs}.

(** ** From attributes back to the purpose *)
Ltac kt_cases :=
  repeat match goal with
         | |- context [if ?b then _ else _] => destruct b eqn:?
         | H : context [if ?b then _ else _] |- _ => destruct b eqn:?
         end.
Lemma attrs_extract S kt n a h : attrs_for S kt n = Some a -> a_alg a = AlgExtract h -> kt = KT_EXTRACT /\ h = hash_of S.
Proof. destruct S; cbn; unfold x_attrs, w_attrs; kt_cases; intros [= <-] [= <-]; split; try reflexivity; lia. Qed.
Lemma attrs_expand S kt n a h : attrs_for S kt n = Some a -> a_alg a = AlgExpand h -> kt = KT_EXPAND /\ h = hash_of S.
Proof. destruct S; cbn; unfold x_attrs, w_attrs; kt_cases; intros [= <-] [= <-]; split; try reflexivity; lia. Qed.
Lemma attrs_encrypt S kt n a : attrs_for S kt n = Some a -> may_use UEncrypt a = true ->
  kt = KT_ENCRYPT /\ a_alg a = AlgAead (aead_of S) (cs_tag (table S)).
Proof. destruct S; cbn; unfold x_attrs, w_attrs; kt_cases; intros [= <-]; try discriminate; split; try reflexivity; lia. Qed.
Lemma attrs_decrypt S kt n a : attrs_for S kt n = Some a -> may_use UDecrypt a = true ->
  kt = KT_DECRYPT /\ a_alg a = AlgAead (aead_of S) (cs_tag (table S)).
Proof. destruct S; cbn; unfold x_attrs, w_attrs; kt_cases; intros [= <-]; try discriminate; split; try reflexivity; lia. Qed.
Lemma attrs_x_export S kt n a : attrs_for (SX S) kt n = Some a -> may_use UExport a = true ->
  In kt [KT_KEY_AGREEMENT; KT_SIGNATURE; KT_VERIFY]
  /\ a = At [UExport] AlgNone TyRaw (if kt =? KT_SIGNATURE then 512 else 256).
Proof.
  cbn; unfold x_attrs; kt_cases; intros [= <-]; try discriminate; intros _; (split; [cbn; lia|reflexivity || (exfalso; unfold KT_KEY_AGREEMENT, KT_SIGNATURE, KT_VERIFY in *; lia)]).
Qed.
Lemma attrs_w_export S kt n a : attrs_for (SW S) kt n = Some a -> may_use UExport a = true ->
  kt = KT_MAKE_KEY_PAIR /\ a = At [UExport] AlgEcdh TyEccPair (8 * cs_ecc (ws_table S)).
Proof. cbn; unfold w_attrs; kt_cases; intros [= <-]; try discriminate; split; try reflexivity; lia. Qed.
Lemma attrs_w_ecdh S kt n a : attrs_for (SW S) kt n = Some a -> may_use UDerive a = true -> a_alg a = AlgEcdh ->
  kt = KT_KEY_AGREEMENT /\ a_bits a = 8 * cs_ecc (ws_table S).
Proof. cbn; unfold w_attrs; kt_cases; intros [= <-]; try discriminate; split; try reflexivity; lia. Qed.
Lemma attrs_w_sign S kt n a : attrs_for (SW S) kt n = Some a -> may_use USignHash a = true ->
  kt = KT_SIGNATURE /\ a_alg a = AlgEcdsa (ws_hash S) /\ a_bits a = 8 * cs_ecc (ws_table S).
Proof. cbn; unfold w_attrs; kt_cases; intros [= <-]; try discriminate; (split; [|split]); try reflexivity; lia. Qed.
Lemma attrs_w_verify S kt n a : attrs_for (SW S) kt n = Some a -> may_use UVerifyHash a = true ->
  kt = KT_VERIFY /\ a_type a = TyEccPub /\ a_bits a = 8 * cs_ecc (ws_table S).
Proof. cbn; unfold w_attrs; kt_cases; intros [= <-]; try discriminate; (split; [|split]); try reflexivity; lia. Qed.

Lemma find_key_log c r s id : find_key id (x_keys (log c r s)) = find_key id (x_keys s).
Proof. reflexivity. Qed.

(** ** Extract, expand *)
Lemma extract_ok S id sa n s o s' :
  hrun S (HExtract (Some id) (Some sa) (Some n) true) s = XRet o s' -> ho_ret o = OK ->
  exists k h, find_key id (x_keys s) = Some k /\ a_alg (k_attr k) = AlgExtract h /\ n <= hash_size h
    /\ ho_1 o = take n (x_extract h sa (k_data k)).
Proof.
  op_start. all: try congruence.
  exists p0, h1. repeat split; auto; try congruence. lia.
Qed.
Lemma expand_ok S id i n s o s' :
  hrun S (HExpand (Some id) (Some i) (Some n)) s = XRet o s' -> ho_ret o = OK ->
  exists k h, find_key id (x_keys s) = Some k /\ a_alg (k_attr k) = AlgExpand h /\ n <= 255 * hash_size h
    /\ ho_1 o = x_expand h (k_data k) i n.
Proof.
  op_start. all: try congruence.
  all: eexists _, _; repeat split; eauto; try congruence; try lia.
  all: match goal with h : hash_alg |- _ => destruct h; cbn in *; lia end.
Qed.
Lemma encrypt_ok S id iv ad p n s o s' :
  hrun S (HEncrypt (Some id) (Some iv) (Some ad) p (Some n) true) s = XRet o s' -> ho_ret o = OK ->
  exists k f t, find_key id (x_keys s) = Some k /\ a_alg (k_attr k) = AlgAead f t /\ may_use UEncrypt (k_attr k) = true
    /\ ho_1 o = x_seal f t (k_data k) iv ad p /\ zlen (ho_1 o) <= n.
Proof.
  op_start.
  all: eexists _, _, _; repeat split; eauto; try congruence; try lia.
Qed.
Lemma decrypt_ok S id iv ad c n s o s' :
  hrun S (HDecrypt (Some id) (Some iv) (Some ad) (Some c) n true) s = XRet o s' -> ho_ret o = OK ->
  exists k f t, find_key id (x_keys s) = Some k /\ a_alg (k_attr k) = AlgAead f t /\ may_use UDecrypt (k_attr k) = true
    /\ x_open f t (k_data k) iv ad c = Some (ho_1 o) /\ zlen (ho_1 o) <= n.
Proof.
  op_start.
  all: eexists _, _, _; repeat split; eauto; try congruence; try lia.
Qed.
Lemma hash_ok S i n s o s' :
  hrun S (HHash (Some i) (Some n) true) s = XRet o s' -> ho_ret o = OK ->
  ho_1 o = x_hash (hash_of S) i /\ zlen (ho_1 o) <= n.
Proof. op_start. split; [reflexivity|lia]. Qed.

(** ** X25519, Ed25519 *)
Lemma agree_x S id pk n s o s' :
  hrun (SX S) (HAgree (Some id) (Some pk) (Some n) true) s = XRet o s' -> ho_ret o = OK ->
  exists k, find_key id (x_keys s) = Some k /\ may_use UExport (k_attr k) = true /\ zlen (k_data k) = 32
    /\ zlen pk = 32 /\ n = 32 /\ ho_1 o = x_smult pk (prepare (k_data k)).
Proof.
  op_start.
  all: eexists; repeat split; eauto; unfold X25519_KEY, X25519_SHARED in *; lia.
Qed.
Lemma sign_x S id m n s o s' :
  hrun (SX S) (HSign (Some id) (Some m) (Some n) true) s = XRet o s' -> ho_ret o = OK ->
  exists k, find_key id (x_keys s) = Some k /\ may_use UExport (k_attr k) = true /\ zlen (k_data k) = 64
    /\ n = 64 /\ ho_1 o = x_ed_sign (k_data k) m.
Proof.
  op_start.
  all: eexists; repeat split; eauto; unfold ED25519_PRIV, ED25519_SIGN in *; lia.
Qed.
Lemma verify_x S id m sg s o s' :
  hrun (SX S) (HVerify (Some id) (Some m) (Some sg)) s = XRet o s' -> ho_ret o = OK ->
  exists k, find_key id (x_keys s) = Some k /\ may_use UExport (k_attr k) = true /\ zlen (k_data k) = 32
    /\ zlen sg = 64 /\ x_ed_ok sg (k_data k) m = true.
Proof.
  op_start.
  all: eexists; repeat split; eauto; unfold ED25519_PUB, ED25519_SIGN in *; lia.
Qed.
Lemma mkpair_x S kid np pl nu ul s o s' :
  hrun (SX S) (HMkPair kid np pl nu ul) s = XRet o s' -> ho_ret o = OK ->
  exists seed a b, np = Some a /\ nu = Some b /\ 32 <= a /\ 32 <= b /\ (ho_1 o, ho_2 o) = x_keygen seed
    /\ seed = x_random (x_log s) 32.
Proof.
  op_start.
  all: eexists _, _, _; repeat split; eauto; unfold X25519_KEY in *; try lia; symmetry; eassumption.
Qed.

(** ** P-256, P-384 *)
Lemma mkpair_w S id np nu s o s' :
  hrun (SW S) (HMkPair (Some id) (Some np) true (Some nu) true) s = XRet o s' -> ho_ret o = OK ->
  exists k c, find_key id (x_keys s) = Some k /\ may_use UExport (k_attr k) = true
    /\ curve_of_bits (a_bits (k_attr k)) = Some c /\ zlen (k_data k) = cs_ecc (ws_table S) /\ zlen (k_data k) <= np
    /\ 1 + nu <= ws_uncomp S /\ ho_1 o = k_data k
    /\ ho_2 o = take nu (drop 1 (arr_read (ws_uncomp S) (point c (fst (x_public c (k_data k))) (snd (x_public c (k_data k)))))).
Proof.
  op_start.
  all: eexists _, _; repeat split; eauto; try lia.
  now rewrite Heqp1.
Qed.
Lemma sign_w S id m n s o s' :
  hrun (SW S) (HSign (Some id) (Some m) (Some n) true) s = XRet o s' -> ho_ret o = OK ->
  exists k c h l, find_key id (x_keys s) = Some k /\ may_use USignHash (k_attr k) = true /\ a_alg (k_attr k) = AlgEcdsa h
    /\ curve_of_bits (a_bits (k_attr k)) = Some c /\ n = cs_sign (ws_table S) /\ zlen (ho_1 o) = n
    /\ ho_1 o = x_ecdsa l c (k_data k) (x_hash (ws_hash S) m).
Proof.
  op_start.
  all: eexists _, _, _, _; repeat split; eauto; try lia; try congruence.
Qed.
Lemma verify_w S id m sg s o s' :
  hrun (SW S) (HVerify (Some id) (Some m) (Some sg)) s = XRet o s' -> ho_ret o = OK ->
  exists k c, find_key id (x_keys s) = Some k /\ may_use UVerifyHash (k_attr k) = true
    /\ curve_of_bits (a_bits (k_attr k)) = Some c /\ zlen sg = cs_sign (ws_table S)
    /\ x_ecdsa_ok c (k_data k) (x_hash (ws_hash S) m) sg = true.
Proof.
  op_start.
  all: eexists _, _; repeat split; eauto; try lia; try congruence.
  all: match goal with |- ?b = true => destruct b; [reflexivity|discriminate] end.
Qed.
End Ops.
