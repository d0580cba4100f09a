(** The post-quantum suite: what is available, sizes of outputs, two parties. *)
From Verif Require Import Bytes Facts Values Monad Psa SuiteCalls SuiteLogic SuitePqc PqcCalls PqcSpec SuiteSpec SuiteStore
  SuiteOps SuiteClaims4 PqcProofs PqcClaims.

Section Avail.
Context {L : libs} (FI : fresh_ids L) (QZ : qsized L).

(** ** Handles for key pairs *)
Lemma pair_import_spec raw k s : exists s',
  qrun (QImport KT_MAKE_KEY_PAIR raw (Some k)) s =
    XRet (match free_slot O (x_slots s) with Some i => HO OK (Some (SLOT_BASE + Z.of_nat i)) [] [] | None => HO E_CRYPTO (Some 0) [] [] end) s'.
Proof.
  unfold qrun, outk, q_key_import, xbind. rewrite Z.eqb_refl. unfold slot_alloc. destruct (free_slot O (x_slots s)); eexists; reflexivity.
Qed.
Lemma slot_open h s id : qreached h s -> is_slot_handle id = true -> (open_slot h id <-> sl_used (slot_at id s) = true).
Proof.
  intros R SH. destruct (slot_of QZ _ _ _ R SH) as [(-> & N & _)|[(-> & O & _)|(dk & -> & O & _)]]; cbn [sl_used slot0]; split; auto; try discriminate; contradiction.
Qed.
Lemma slots_at h s : qreached h s -> x_slots s = [slot_at SLOT_BASE s; slot_at (SLOT_BASE + 1) s].
Proof.
  intros R. destruct (qslotted QZ _ _ R) as (u & v & E & _). unfold slot_at. rewrite E, Z.sub_diag. replace (SLOT_BASE + 1 - SLOT_BASE) with 1 by lia. reflexivity.
Qed.
Lemma pair_capacity h s raw k : qreached h s ->
  (exists id s', qrun (QImport KT_MAKE_KEY_PAIR raw (Some k)) s = XRet (HO OK (Some id) [] []) s')
  <-> ~ exists i j, i <> j /\ open_slot h i /\ open_slot h j.
Proof.
  intros R. destruct (pair_import_spec raw k s) as [s' E]. rewrite E. rewrite (slots_at _ _ R). cbn [free_slot].
  assert (H0 : is_slot_handle SLOT_BASE = true) by reflexivity. assert (H1 : is_slot_handle (SLOT_BASE + 1) = true) by reflexivity.
  pose proof (slot_open _ _ _ R H0) as A. pose proof (slot_open _ _ _ R H1) as B.
  assert (OP : forall i, open_slot h i -> i = SLOT_BASE \/ i = SLOT_BASE + 1) by (intros i O; apply slot_cases, (proj1 (handles QZ _ _ i R)), O).
  destruct (sl_used (slot_at SLOT_BASE s)) eqn:U; [destruct (sl_used (slot_at (SLOT_BASE + 1) s)) eqn:V|].
  - split; [intros (i & t & X); apply (f_equal (fun r => match r with XRet o _ => ho_ret o | XUb _ => 1 end)) in X; discriminate X|].
    intros N. destruct N. exists SLOT_BASE, (SLOT_BASE + 1). split; [lia|]. split; [now apply A|now apply B].
  - split; [|intros _; eauto]. intros _ (i & j & N & O1 & O2). destruct (OP _ O1) as [-> | ->], (OP _ O2) as [-> | ->]; try contradiction;
      first [apply B in O1; discriminate O1|apply B in O2; discriminate O2].
  - split; [|intros _; eauto]. intros _ (i & j & N & O1 & O2). destruct (OP _ O1) as [-> | ->], (OP _ O2) as [-> | ->]; try contradiction;
      first [apply A in O1; discriminate O1|apply A in O2; discriminate O2].
Qed.
Lemma import_fresh h s kt raw k id s' : qreached h s -> qrun (QImport kt raw k) s = XRet (HO OK (Some id) [] []) s' ->
  ~ open_slot h id /\ forall kt' raw', ~ qimported h id kt' raw'.
Proof.
  intros R E. destruct (q_import_spec _ _ _ _ _ _ E) as (_ & _ & [(O & _)|[(-> & _ & i & _ & K & F & ES)|(N & ES & a & j & _ & K & A & IO & Ei & ZK & EK)]]).
  - destruct O. reflexivity.
  - apply some_inj in K. rewrite (slots_at _ _ R) in F. assert (SH : is_slot_handle id = true) by (rewrite K; eapply free_lt; eauto). split.
    + intros O. apply (slot_open _ _ _ R SH) in O. cbn [free_slot] in F.
      destruct (sl_used (slot_at SLOT_BASE s)) eqn:U; [destruct (sl_used (slot_at (SLOT_BASE + 1) s)) eqn:V|]; try discriminate F; injection F as <-.
      * cbn [Z.of_nat] in K. change (Z.pos (Pos.of_succ_nat 0)) with 1 in K. rewrite K in O. congruence.
      * cbn [Z.of_nat] in K. rewrite Z.add_0_r in K. rewrite K in O. congruence.
    + intros kt' raw' I. pose proof (imported_range FI _ _ _ _ _ R I). rewrite not_slot in SH by lia. discriminate.
  - apply some_inj in K. subst j. destruct (FI (x_log s) (map fst (x_keys s)) ltac:(rewrite zlen_map; exact ZK)) as [NI RG]. rewrite <- Ei in NI, RG. split.
    + intros O. apply (proj1 (handles QZ _ _ _ R)) in O. rewrite not_slot in O by lia. discriminate.
    + intros kt' raw' I. destruct (proj2 (qkeyed_runs FI _ _ R) _ _ _ I) as (a' & _ & F). apply NI. eapply find_key_in; eauto.
Qed.
Lemma import_failed kt raw k s o s' : qrun (QImport kt raw (Some k)) s = XRet o s' -> ho_ret o <> OK ->
  ho_kid o = Some 0 /\ x_keys s' = x_keys s /\ x_slots s' = x_slots s.
Proof.
  intros E N. destruct (q_import_spec _ _ _ _ _ _ E) as (_ & _ & [(_ & EK & ES & [K|K])|[(_ & _ & i & O & _)|(_ & _ & a & id & O & _)]]); try contradiction; try discriminate.
  auto.
Qed.
Lemma slot_erased h s id : qreached h s -> is_slot_handle id = true -> ~ open_slot h id -> slot_at id s = slot0.
Proof.
  intros R SH N. destruct (slot_of QZ _ _ _ R SH) as [(-> & _)|[(_ & O & _)|(dk & _ & O & _)]]; [reflexivity| |]; contradiction.
Qed.
Lemma destroy_pair h s id : qreached h s -> open_slot h id ->
  exists s', qrun (QDestroy (Some id)) s = XRet (HO OK (Some 0) [] []) s'.
Proof.
  intros R O. pose proof (proj1 (handles QZ _ _ _ R) O) as SH. unfold qrun, outk, q_key_destroy. rewrite SH. unfold xbind, slot_free, xbind, slot_from_handle.
  rewrite SH. cbn [negb]. destruct (_ || _); eexists; reflexivity.
Qed.
(** ** Imported keys *)
Lemma qimport_only h s kt raw k id s' : qreached h s -> qrun (QImport kt raw k) s = XRet (HO OK (Some id) [] []) s' ->
  kt = KT_MAKE_KEY_PAIR \/ qimportable kt raw.
Proof.
  intros R E. destruct (q_import_spec _ _ _ _ _ _ E) as (_ & _ & [(O & _)|[(-> & _)|(N & _ & a & j & _ & K & A & IO & _)]]); [destruct O; reflexivity|now left|].
  right. revert A IO. unfold q_attrs, qimportable, pqc_suite, pt_key. unfold KT_KEY_AGREEMENT, KT_SIGNATURE, KT_VERIFY, KT_EXTRACT, KT_EXPAND, KT_ENCRYPT, KT_DECRYPT.
  repeat match goal with |- context [if ?b then _ else _] => destruct b eqn:? end; intros [= <-]; unfold import_ok; cbn [a_type a_bits]; intros IO.
  - apply andb_true_iff in IO. destruct IO as [IO I3]. apply andb_true_iff in IO. destruct IO as [I1 I2]. left. lia.
  - apply andb_true_iff in IO. destruct IO as [I1 _]. apply Z.eqb_eq in I1. right. split; [lia|exact I1].
  - apply andb_true_iff in IO. destruct IO as [I1 _]. apply Z.eqb_eq in I1. right. split; [lia|exact I1].
Qed.
Lemma qkeys_step a s o s' : qrun a s = XRet o s' -> zlen (x_keys s') <= zlen (x_keys s) + 1.
Proof.
  intros R.
  destruct a; try (rewrite (qp_keys _ _ _ _ (qrun_post' _ _ _ _ R)) by reflexivity; lia).
  - destruct (q_import_spec _ _ _ _ _ _ R) as (_ & _ & [(_ & EK & _)|[(_ & EK & _)|(_ & _ & a & i & _ & _ & _ & _ & _ & _ & EK)]]); rewrite EK; try lia.
    rewrite zlen_cons. lia.
  - destruct (q_destroy_spec _ _ _ _ R) as [(_ & _ & ->)|(id & _ & _ & [(_ & _ & EK & _)|(_ & _ & [(_ & EK)|[(_ & EK)|(_ & _ & EK)]])])]; try rewrite EK; try lia.
    pose proof (drop_key_len id (x_keys s)). lia.
Qed.
Lemma qkeys_count h s : qreached h s -> zlen (x_keys s) <= zlen h.
Proof.
  intros [l R]. cut (zlen (x_keys s) <= zlen ([] ++ h)); [auto|].
  apply (qruns_ind (fun g t => zlen (x_keys t) <= zlen g)) with (3 := R).
  - intros g t b q t' IH E. pose proof (qkeys_step _ _ _ _ E). rewrite zlen_app. unfold zlen at 3. cbn [length]. lia.
  - cbn. lia.
Qed.
Lemma qimport_willing h s kt raw k : willing L -> qreached h s -> zlen h < KEY_IDS -> qimportable kt raw ->
  exists id s', qrun (QImport kt raw (Some k)) s = XRet (HO OK (Some id) [] []) s'.
Proof.
  intros W R Z IM. pose proof (qkeys_count _ _ R) as C.
  assert (ZT : (zlen (x_keys s) <? KEY_IDS) = true) by (apply Z.ltb_lt; eapply Z.le_lt_trans; eassumption).
  assert (A : kt <> KT_MAKE_KEY_PAIR /\ exists a, q_attrs kt (zlen raw) = Some a /\ import_ok a raw = true).
  { revert IM. unfold q_attrs, qimportable, pqc_suite, pt_key, import_ok.
    unfold KT_MAKE_KEY_PAIR, KT_KEY_AGREEMENT, KT_SIGNATURE, KT_VERIFY, KT_EXTRACT, KT_EXPAND, KT_ENCRYPT, KT_DECRYPT.
    intros [[K1 K2]|[K1 K2]]; (split; [lia|]); repeat match goal with |- context [if ?b then _ else _] => destruct b eqn:? end; try (exfalso; lia);
      eexists; (split; [reflexivity|]); cbn [a_type a_bits].
    - rewrite Z.mul_comm, Z.div_mul by lia. apply andb_true_iff. split; [apply andb_true_iff; split|]; lia.
    - apply andb_true_iff. split; [apply Z.eqb_eq; exact K2|reflexivity].
    - apply andb_true_iff. split; [apply Z.eqb_eq; exact K2|reflexivity]. }
  destruct A as (N & a & A & IO). unfold qrun, outk, q_key_import, xbind. replace (kt =? KT_MAKE_KEY_PAIR) with false by lia. rewrite A.
  unfold psa_import_key, xdo. rewrite W. cbn [Z.eqb]. rewrite ZT. cbn [negb]. rewrite IO. cbn [negb Z.eqb]. do 2 eexists. reflexivity.
Qed.
(** ** Operations *)
Lemma pair_willing h s id n u : willing L -> qreached h s -> open_slot h id -> DK_LEN <= n -> EK_LEN <= u ->
  exists dk ek s', qrun (QMkPair (Some id) (Some n) true (Some u) true) s = XRet (HO OK None dk ek) s'.
Proof.
  intros W R O N U. pose proof (proj1 (handles QZ _ _ _ R) O) as SH. pose proof O as US. apply (slot_open _ _ _ R SH) in US.
  unfold qrun, out2, q_make_key_pair, xbind. unfold DK_LEN, EK_LEN in *.
  replace (n =? 0) with false by lia. replace (u =? 0) with false by lia. cbn [orb negb]. unfold slot_from_handle. rewrite SH. cbn [negb].
  replace (MAX_SLOTS <=? id - SLOT_BASE) with false by (unfold is_slot_handle in SH; apply andb_true_iff in SH; lia). rewrite US. cbn [orb negb].
  assert (T : sl_type (slot_at id s) = KT_MAKE_KEY_PAIR).
  { destruct (slot_of QZ _ _ _ R SH) as [(E & _)|[(-> & _)|(dk & -> & _)]]; try reflexivity. rewrite E in US. discriminate US. }
  rewrite T, Z.eqb_refl. cbn [negb]. replace (n <? 1632) with false by lia. replace (u <? 800) with false by lia. cbn [orb].
  unfold xget, xdo. rewrite W. cbn [Z.eqb negb]. do 3 eexists. reflexivity.
Qed.
Lemma encaps_willing s pk n k : willing L -> zlen pk = EK_LEN -> CT_LEN <= n -> SS_LEN <= k ->
  exists g s', qrun (QEncaps (Some pk) (Some n) true (Some k) true) s = XRet (HO OK None (fst (x_encaps g pk)) (snd (x_encaps g pk))) s'.
Proof.
  intros W Z N K. unfold qrun, out2, q_encapsulate, xbind. rewrite Z, Z.eqb_refl. cbn [negb orb].
  replace (n <? CT_LEN) with false by lia. replace (k <? SS_LEN) with false by lia. cbn [orb]. unfold xget, xdo. rewrite W. cbn [Z.eqb negb]. do 2 eexists. reflexivity.
Qed.
Ltac exported R W M Z :=
  let E := fresh "E" in let t := fresh "t" in
  match goal with |- context [export_raw_key ?i ?z ?s] => destruct (export_willing FI QZ _ i z s _ W R M Z) as [t E]; rewrite E end; cbn [negb Z.eqb OK].
Lemma decaps_willing h s id dk c n : willing L -> qreached h s -> material h id dk -> zlen dk = DK_LEN -> zlen c = CT_LEN -> SS_LEN <= n ->
  exists s', qrun (QDecaps (Some id) (Some c) (Some n) true) s = XRet (HO OK None (x_decaps c dk) []) s'.
Proof.
  intros W R M Z C N. unfold qrun, out1, q_decapsulate, xbind. rewrite C, Z.eqb_refl. cbn [negb]. replace (n <? SS_LEN) with false by lia.
  exported R W M (Z.eq_le_incl _ _ Z). rewrite Z, Z.eqb_refl. cbn [negb]. unfold xget, xdo. rewrite W. cbn [Z.eqb negb]. eexists. reflexivity.
Qed.
Lemma sign_willing h s id sk m n : willing L -> qreached h s -> material h id sk -> zlen sk = SK_LEN -> SIG_LEN <= n ->
  exists g s', qrun (QSign (Some id) (Some m) (Some n) true) s = XRet (HO OK None (x_dsa_sign g m sk) []) s'.
Proof.
  intros W R M Z N. unfold qrun, out1, q_signature, xbind. cbn [negb]. replace (n <? SIG_LEN) with false by lia.
  exported R W M (Z.eq_le_incl _ _ Z). rewrite Z, Z.eqb_refl. cbn [negb]. unfold xget, xdo. rewrite W. cbn [Z.eqb negb]. do 2 eexists. reflexivity.
Qed.
Lemma verify_willing h s id pk m g : willing L -> qreached h s -> material h id pk -> zlen pk = PK_LEN ->
  exists s', qrun (QVerify (Some id) (Some m) (Some g)) s = XRet (HO (if x_dsa_ok m g pk then OK else E_CRYPTO) None [] []) s'.
Proof.
  intros W R M Z. unfold qrun, q_verify, xbind.
  exported R W M (Z.eq_le_incl _ _ Z). rewrite Z, Z.eqb_refl. cbn [negb]. unfold xget, xdo. rewrite W. cbn [Z.eqb negb orb]. destruct (x_dsa_ok m g pk); eexists; reflexivity.
Qed.
Lemma hash_willing s i n : HASH_LEN <= n -> qrun (QHash (Some i) (Some n) true) s = XRet (HO OK None (x_shake i HASH_LEN) []) s.
Proof. intros N. unfold qrun, out1, q_hash, xbind. cbn [negb]. now replace (n <? HASH_LEN) with false by lia. Qed.
Lemma extract_willing h s id ikm sa n : willing L -> qreached h s -> material h id ikm -> zlen ikm <= IKM_BUF -> 0 < zlen sa < 2 ^ 61 -> HASH_LEN <= n ->
  exists s', qrun (QExtract (Some id) (Some sa) (Some n) true) s = XRet (HO OK None (x_kmac sa ikm (8 * HASH_LEN) []) []) s'.
Proof.
  intros W R M Z S N. unfold qrun, out1, q_extract, xbind. replace (zlen sa =? 0) with false by lia. cbn [negb orb]. replace (n <? HASH_LEN) with false by lia.
  exported R W M Z. unfold kmac256, xbind. cbn [HASH_LEN Z.eqb]. unfold xget, xdo. rewrite W. cbn [Z.eqb negb OK].
  rewrite !take_bits by (unfold IKM_BUF in *; lia). eexists. reflexivity.
Qed.
Lemma expand_willing h s id prk i n : willing L -> qreached h s -> material h id prk -> zlen prk <= HASH_LEN -> 0 < zlen i < 2 ^ 61 -> 0 < n < 2 ^ 61 ->
  exists s', qrun (QExpand (Some id) (Some i) (Some n)) s = XRet (HO OK None (x_kmac prk i (8 * n) []) []) s'.
Proof.
  intros W R M Z S N. unfold qrun, out1, q_expand, xbind. replace (zlen i =? 0) with false by lia. replace (n =? 0) with false by lia. cbn [negb orb].
  exported R W M Z. unfold kmac256, xbind. replace (n =? 0) with false by lia. unfold xget, xdo. rewrite W. cbn [Z.eqb negb OK].
  rewrite !take_bits by (unfold HASH_LEN in *; lia). rewrite (Z.mod_small (n * 8)) by lia. rewrite (Z.mul_comm n 8). eexists. reflexivity.
Qed.
Lemma encrypt_willing h s id key iv ad p n : willing L -> qreached h s -> qimported h id KT_ENCRYPT key ->
  zlen (x_seal AesCcm 16 key iv ad p) <= n ->
  exists s', qrun (QEncrypt (Some id) (Some iv) ad p (Some n) true) s = XRet (HO OK None (x_seal AesCcm 16 key iv ad p) []) s'.
Proof.
  intros W R I Z. destruct (proj2 (qkeyed_runs FI _ _ R) _ _ _ I) as (a & A & F). injection A as <-.
  unfold qrun, out1, q_encrypt, xbind. cbn [negb]. unfold psa_aead_encrypt, xget, xdo. rewrite W. cbn [Z.eqb]. rewrite F.
  cbn [k_attr k_data may_use a_usage a_alg existsb usage_eqb orb andb]. unfold CCM_ALG. rewrite alg_eqb_refl.
  replace (zlen (x_seal AesCcm 16 key iv ad p) <=? n) with true by lia. cbn [Z.eqb negb]. eexists. reflexivity.
Qed.
Lemma decrypt_willing h s id key iv ad c p n : willing L -> qreached h s -> qimported h id KT_DECRYPT key ->
  x_open AesCcm 16 key iv ad c = Some p -> zlen p <= n ->
  exists s', qrun (QDecrypt (Some id) (Some iv) ad (Some c) (Some n) true) s = XRet (HO OK None p []) s'.
Proof.
  intros W R I O Z. destruct (proj2 (qkeyed_runs FI _ _ R) _ _ _ I) as (a & A & F). injection A as <-.
  unfold qrun, out1, q_decrypt, xbind. cbn [negb]. unfold psa_aead_decrypt, xget, xdo. rewrite W. cbn [Z.eqb]. rewrite F.
  cbn [k_attr k_data may_use a_usage a_alg existsb usage_eqb orb andb]. unfold CCM_ALG. rewrite alg_eqb_refl, O.
  replace (zlen p <=? n) with true by lia. cbn [Z.eqb negb]. eexists. reflexivity.
Qed.
(** ** Sizes *)
Ltac q_step :=
  lazymatch goal with
  | |- wp _ (slot_from_handle _) _ _ => apply wp_from
  | |- wp _ (put_slot _ _) _ _ => apply wp_put
  | |- wp _ (slot_alloc _ _) _ _ => apply wp_alloc; [intros ? ?|intros ?]
  | _ => wp_step
  end; cbv beta iota; wp_ok; cbv beta iota.
Ltac q_go := repeat q_step.
Definition qfitting (a : qcall) (o : hout) : Prop :=
  (forall n, qroom_1 a = Some n -> 0 <= n -> zlen (ho_1 o) <= n) /\ (forall n, qroom_2 a = Some n -> 0 <= n -> zlen (ho_2 o) <= n).
Lemma qfit_nil a r k : qfitting a (HO r k [] []).
Proof. split; intros n _ H; exact H. Qed.
Lemma bits_small n : 0 <= n -> exists k, (n * 8) mod 2 ^ 64 = 8 * k /\ 0 <= k <= n.
Proof.
  intros H. exists (n mod 2 ^ 61). split.
  - change (2 ^ 64) with (2 ^ 61 * 8). rewrite Z.mul_mod_distr_r by lia. lia.
  - split; [apply Z.mod_pos_bound; lia|apply Z.mod_le; lia].
Qed.
Lemma qoutput_fits a s o s' : qrun a s = XRet o s' -> qfitting a o.
Proof.
  wp_start. destruct a; unfold qrun, out1, outk, out2; repeat q_step; try exact I; try apply qfit_nil;
    (split; cbn [qroom_1 qroom_2 ho_1 ho_2]; intros ? [= <-] ?); try (change (zlen (@nil Z)) with 0; lia); booly.
  all: try (rewrite ?(proj1 (qz_pair _ QZ _)), ?(proj2 (qz_pair _ QZ _)), ?(proj1 (qz_encaps _ QZ _ _)), ?(proj2 (qz_encaps _ QZ _ _)), ?(qz_decaps _ QZ); lia).
  all: try lia.
  1,2: match goal with |- zlen (x_dsa_sign ?l ?m ?k) <= _ => pose proof (qz_sign _ QZ l m k) end; lia.
  - rewrite (qz_shake _ QZ) by discriminate. lia.
  - change ((HASH_LEN * 8) mod 2 ^ 64) with (8 * 64). rewrite (qz_kmac _ QZ) by lia. unfold HASH_LEN in *. lia.
  - change ((HASH_LEN * 8) mod 2 ^ 64) with (8 * 64). rewrite (qz_kmac _ QZ) by lia. unfold HASH_LEN in *. lia.
  - destruct (bits_small z0) as (k & -> & ?); [assumption|]. rewrite (qz_kmac _ QZ); lia.
  - destruct (bits_small z0) as (k & -> & ?); [assumption|]. rewrite (qz_kmac _ QZ); lia.
Qed.
Lemma pair_event h s kid np pl nu ul dk ek : qreached h s -> In (QMkPair kid np pl nu ul, HO OK None dk ek) h -> exists g, x_kem_pair g = (ek, dk).
Proof.
  intros [l R]. change h with ([] ++ h).
  apply (qruns_ind (fun g _ => In (QMkPair kid np pl nu ul, HO OK None dk ek) g -> exists g, x_kem_pair g = (ek, dk))) with (3 := R).
  - intros g t a o t' IH E I. apply in_app_iff in I. destruct I as [I|[I|[]]]; [auto|]. injection I as -> ->.
    destruct (q_mkpair_spec _ _ _ _ _ _ _ _ E) as (_ & [(N & _)|(id & n & u & v & g' & _ & _ & _ & _ & _ & _ & _ & _ & X & _)]); [destruct N; reflexivity|].
    injection X as -> ->. exists g'. apply surjective_pairing.
  - intros [].
Qed.
Lemma qrefuse a s : qcomplete a = false -> qrun a s = XRet (HO E_INVALID_ARG None [] []) s.
Proof.
  intros C. destruct a; cbn in C.
  all: unfold qrun, out1, outk, out2, q_key_import, q_key_destroy, q_make_key_pair, q_encapsulate, q_decapsulate, q_signature, q_verify, q_hash,
    q_extract, q_expand, q_encrypt, q_decrypt.
  all: repeat match goal with
         | |- context [match ?k with Some _ => _ | None => _ end] =>
           is_var k; destruct k; cbn [given room filled andb negb] in C
         end.
  all: repeat match type of C with context [negb (?x =? 0)] => destruct (x =? 0); cbn in C end.
  all: repeat match type of C with context [?b] => is_var b; destruct b; cbn in C end.
  all: try discriminate; reflexivity.
Qed.
Lemma qsuccess a s o s' : qrun a s = XRet o s' -> ho_ret o = OK -> exists l, x_log s' = l ++ x_log s /\ Forall (fun e => snd e = 0) l.
Proof. intros E O. destruct (qp_log _ _ _ _ (qrun_post' _ _ _ _ E)) as (l & X & Y). eauto. Qed.
Lemma qcodes a s : exists o s', qrun a s = XRet o s' /\ In (ho_ret o) [OK; E_INVALID_ARG; E_CRYPTO; E_TOO_SMALL]
  /\ (ho_ret o = E_INVALID_ARG \/ ho_ret o = E_TOO_SMALL -> s' = s).
Proof. destruct (qrun_ok a s) as (o & s' & E & P). exists o, s'. split; [exact E|]. split; [apply P|]. intros [X|X]; [exact (qp_arg _ _ _ _ P X)|exact (qp_small _ _ _ _ P X)]. Qed.
(** What the store of the library holds. *)
Lemma qstore h s id : qreached h s -> ((exists k, find_key id (x_keys s) = Some k) <-> exists kt raw, qimported h id kt raw).
Proof.
  intros R. destruct (qkeyed_runs FI _ _ R) as [K1 K2]. split.
  - intros [k F]. destruct (K1 _ _ F) as (_ & kt & I & _). eauto.
  - intros (kt & raw & I). destruct (K2 _ _ _ I) as (a & _ & F). eauto.
Qed.
Lemma destroy_key h s id : willing L -> qreached h s -> (exists kt raw, qimported h id kt raw) ->
  exists s', qrun (QDestroy (Some id)) s = XRet (HO OK (Some 0) [] []) s' /\ find_key id (x_keys s') = None.
Proof.
  intros W R (kt & raw & I). pose proof (imported_range FI _ _ _ _ _ R I) as B. destruct (proj2 (qkeyed_runs FI _ _ R) _ _ _ I) as (a & _ & F).
  unfold qrun, outk, q_key_destroy. rewrite not_slot by lia. unfold xbind, psa_destroy_key, xdo. rewrite W. cbn [Z.eqb]. replace (id =? 0) with false by lia.
  rewrite F. cbn [negb Z.eqb]. eexists. split; [reflexivity|]. cbn [log set_keys x_keys]. rewrite find_key_drop. now rewrite Z.eqb_refl.
Qed.
Lemma destroy_unknown h s id : qreached h s -> ~ SLOT_BASE <= id < SLOT_BASE + MAX_SLOTS -> id <> 0 -> (forall kt raw, ~ qimported h id kt raw) ->
  exists s', qrun (QDestroy (Some id)) s = XRet (HO E_CRYPTO (Some 0) [] []) s'.
Proof.
  intros R SH NZ N. assert (SF : is_slot_handle id = false).
  { destruct (is_slot_handle id) eqn:E; [|reflexivity]. destruct SH. unfold is_slot_handle in E. apply andb_true_iff in E. lia. }
  unfold qrun, outk, q_key_destroy. rewrite SF. unfold xbind, psa_destroy_key, xdo. replace (id =? 0) with false by lia.
  destruct (find_key id (x_keys s)) as [k|] eqn:F; [destruct (proj1 (qkeyed_runs FI _ _ R) _ _ F) as (_ & kt & I & _); destruct (N _ _ I)|].
  destruct (x_status (x_log s) (XDestroy id) =? 0) eqn:E; cbn [negb PSA_INVALID_HANDLE Z.eqb].
  - eexists. reflexivity.
  - rewrite E. eexists. reflexivity.
Qed.
Lemma destroy_zero a s o s' : qrun (QDestroy (Some a)) s = XRet o s' -> ho_kid o = Some 0.
Proof. intros E. destruct (q_destroy_spec _ _ _ _ E) as [(X & _)|(id & _ & K & _)]; [discriminate X|exact K]. Qed.
Lemma sealing_apart h s id kt raw : qreached h s -> qimported h id kt raw -> kt = KT_ENCRYPT \/ kt = KT_DECRYPT -> forall b, ~ material h id b.
Proof.
  intros R I K b M. pose proof (imported_range FI _ _ _ _ _ R I) as B. destruct M as [M|(kt' & I' & K')].
  - apply (proj2 (handles QZ _ _ id R)) in M. rewrite not_slot in M by lia. discriminate.
  - destruct (proj2 (qkeyed_runs FI _ _ R) _ _ _ I) as (a1 & A1 & F1). destruct (proj2 (qkeyed_runs FI _ _ R) _ _ _ I') as (a2 & A2 & F2).
    rewrite F1 in F2. injection F2 as -> ->. apply (q_attrs_export _ _ _ A2) in K'. apply (q_attrs_export _ _ _ A1) in K'.
    unfold KT_ENCRYPT, KT_DECRYPT, KT_KEY_AGREEMENT, KT_EXPAND in *. lia.
Qed.
Lemma same_purpose h s id kt raw kt' raw' : qreached h s -> qimported h id kt raw -> qimported h id kt' raw' ->
  (kt = KT_ENCRYPT \/ kt = KT_DECRYPT) -> (kt' = KT_ENCRYPT \/ kt' = KT_DECRYPT) -> kt = kt'.
Proof.
  intros R I J K K'. destruct (proj2 (qkeyed_runs FI _ _ R) _ _ _ I) as (a1 & A1 & F1). destruct (proj2 (qkeyed_runs FI _ _ R) _ _ _ J) as (a2 & A2 & F2).
  rewrite F1 in F2. injection F2 as -> ->. destruct K as [-> | ->], K' as [-> | ->]; try reflexivity; injection A1 as <-; discriminate A2.
Qed.
End Avail.
Lemma purpose_partial (L : libs) h s id kt raw a o s' : fresh_ids L -> qsized L -> qreached h s ->
  qimported h id kt raw -> kt = KT_ENCRYPT \/ kt = KT_DECRYPT -> qrun a s = XRet o s' -> ho_ret o = OK ->
  match a with
  | QDecaps k _ _ _ | QSign k _ _ _ | QVerify k _ _ | QExtract k _ _ _ | QExpand k _ _ | QMkPair k _ _ _ _ => k <> Some id
  | QEncrypt k _ _ _ _ _ => k = Some id -> kt = KT_ENCRYPT
  | QDecrypt k _ _ _ _ _ => k = Some id -> kt = KT_DECRYPT
  | _ => True
  end.
Proof.
  intros FI QZ R I K E O. pose proof (sealing_apart FI QZ _ _ _ _ _ R I K) as N. destruct a; try exact Logic.I.
  - intros ->. destruct (pair_ok QZ _ _ _ _ _ _ _ _ _ R E O) as (i & _ & _ & _ & [= <-] & _ & _ & _ & _ & OP & _).
    pose proof (imported_range FI _ _ _ _ _ R I) as B. apply (proj1 (handles QZ _ _ id R)) in OP. rewrite not_slot in OP by lia. discriminate.
  - intros ->. destruct (decaps_ok FI QZ _ _ _ _ _ _ _ _ R E O) as (i & ? & ? & dk & [= <-] & _ & _ & M & _). exact (N _ M).
  - intros ->. destruct (sign_ok FI QZ _ _ _ _ _ _ _ _ R E O) as (i & ? & ? & dk & ? & [= <-] & _ & _ & M & _). exact (N _ M).
  - intros ->. destruct (verify_ok FI QZ _ _ _ _ _ _ _ R E O) as (i & ? & ? & dk & [= <-] & _ & _ & M & _). exact (N _ M).
  - intros ->. destruct (extract_uses FI QZ _ _ _ _ _ _ _ _ R E O) as [b M]. exact (N _ M).
  - intros ->. destruct (expand_uses FI QZ _ _ _ _ _ _ _ R E O) as [b M]. exact (N _ M).
  - intros ->. destruct (encrypt_ok FI _ _ _ _ _ _ _ _ _ _ R E O) as (i & ? & ? & ky & [= <-] & _ & _ & J & _).
    apply (same_purpose FI _ _ _ _ _ _ _ R I J K). now left.
  - intros ->. destruct (decrypt_ok FI _ _ _ _ _ _ _ _ _ _ R E O) as (i & ? & ? & ? & ky & [= <-] & _ & _ & _ & J & _).
    apply (same_purpose FI _ _ _ _ _ _ _ R I J K). now right.
Qed.

(** ** Two parties *)
Section Two.
Context (A B : libs) (FA : @fresh_ids A) (ZA : qsized A).
Lemma kem_agree h s kid np pl nu ul dk ek id sB sB' nc ns ct ss sA' n o : kem_correct A B -> @qreached A h s ->
  In (QMkPair kid np pl nu ul, HO OK None dk ek) h -> holds_pair h id dk ->
  @qrun B (QEncaps (Some ek) nc true ns true) sB = XRet (HO OK None ct ss) sB' ->
  @qrun A (QDecaps (Some id) (Some ct) (Some n) true) s = XRet o sA' -> ho_ret o = OK -> ho_1 o = ss.
Proof.
  intros KC R I H E D O. destruct (pair_event _ _ _ _ _ _ _ _ _ R I) as [g G].
  destruct (@encaps_ok B _ _ _ _ _ _ _ _ E eq_refl) as (pk & m & k & g' & [= <-] & _ & _ & _ & _ & _ & X). cbn [ho_1 ho_2] in X.
  destruct (decaps_ok FA ZA _ _ _ _ _ _ _ _ R D O) as (i & c & m' & d & [= <-] & [= <-] & _ & M & _ & _ & _ & ->).
  assert (d = dk).
  { pose proof (proj2 (handles ZA _ _ id R) _ H) as SH. destruct M as [M|(kt & M & _)].
    - destruct (slot_of ZA _ _ _ R SH) as [(_ & _ & N)|[(_ & _ & N)|(d' & _ & _ & _ & N)]]; [destruct (N _ H)|destruct (N _ H)|].
      apply N in H. apply N in M. congruence.
    - pose proof (imported_range FA _ _ _ _ _ R M). rewrite not_slot in SH by lia. discriminate. }
  subst d. pose proof (KC g g') as K. rewrite G in K. cbn [fst snd] in K. rewrite <- X in K. exact K.
Qed.
Lemma kem_available h s kid np pl nu ul dk ek id sB sB' nc ns ct ss n : @willing A -> qsized B -> @qreached A h s ->
  In (QMkPair kid np pl nu ul, HO OK None dk ek) h -> holds_pair h id dk -> SS_LEN <= n ->
  @qrun B (QEncaps (Some ek) nc true ns true) sB = XRet (HO OK None ct ss) sB' ->
  exists k sA', @qrun A (QDecaps (Some id) (Some ct) (Some n) true) s = XRet (HO OK None k []) sA'.
Proof.
  intros W ZB R I H N E. destruct (pair_event _ _ _ _ _ _ _ _ _ R I) as [g G].
  destruct (@encaps_ok B _ _ _ _ _ _ _ _ E eq_refl) as (pk & m & k & g' & [= <-] & _ & _ & _ & _ & _ & X). cbn [ho_1 ho_2] in X.
  eexists. apply (decaps_willing FA ZA h s id dk ct n W R (or_introl H)); auto.
  - change dk with (snd (ek, dk)). rewrite <- G. apply (qz_pair _ ZA).
  - change ct with (fst (ct, ss)). rewrite X. apply (qz_encaps _ ZB).
Qed.
Context (FB : @fresh_ids B) (ZB : qsized B).
Lemma qsealed_opens hA sA hB sB idA idB key iv ad p n ct sA' k o sB' :
  (forall key iv ad p, @x_open B AesCcm 16 key iv ad (@x_seal A AesCcm 16 key iv ad p) = Some p) ->
  @qreached A hA sA -> @qreached B hB sB -> qimported hA idA KT_ENCRYPT key -> qimported hB idB KT_DECRYPT key ->
  @qrun A (QEncrypt (Some idA) (Some iv) ad p n true) sA = XRet (HO OK None ct []) sA' ->
  @qrun B (QDecrypt (Some idB) (Some iv) ad (Some ct) k true) sB = XRet o sB' -> ho_ret o = OK -> ho_1 o = p.
Proof.
  intros C RA RB IA IB E D O.
  destruct (encrypt_ok FA _ _ _ _ _ _ _ _ _ _ RA E eq_refl) as (i & v & m & ky & [= <-] & [= <-] & _ & I1 & X & _). cbn [ho_1] in X.
  destruct (decrypt_ok FB _ _ _ _ _ _ _ _ _ _ RB D O) as (i2 & v2 & x & m2 & ky2 & [= <-] & [= <-] & [= <-] & _ & I2 & Y & _).
  destruct (proj2 (qkeyed_runs FA _ _ RA) _ _ _ IA) as (a1 & _ & F1). destruct (proj2 (qkeyed_runs FA _ _ RA) _ _ _ I1) as (a2 & _ & F2).
  destruct (proj2 (qkeyed_runs FB _ _ RB) _ _ _ IB) as (a3 & _ & F3). destruct (proj2 (qkeyed_runs FB _ _ RB) _ _ _ I2) as (a4 & _ & F4).
  assert (ky = key) by congruence. assert (ky2 = key) by congruence. subst. rewrite C in Y. congruence.
Qed.
End Two.
