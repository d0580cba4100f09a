(** The post-quantum suite over histories: key store, slots, results of the operations. *)
From Verif Require Import Bytes Facts Values Monad Psa SuiteCalls SuiteLogic SuitePqc PqcCalls PqcSpec SuiteSpec SuiteStore
  SuiteOps PqcProofs.

Lemma some_inj {A} (a b : A) : Some a = Some b -> a = b.
Proof. congruence. Qed.

Ltac booly := repeat match goal with
  | H : _ || _ = false |- _ => apply orb_false_iff in H; destruct H
  | H : negb _ = false |- _ => apply negb_false_iff in H
  | H : _ && _ = true |- _ => apply andb_true_iff in H; destruct H end.

Section Claims.
Context {L : libs} (FI : fresh_ids L) (QZ : qsized L).

Definition qkeyed (h : list (qcall * hout)) (s : xst) : Prop :=
  (forall id k, find_key id (x_keys s) = Some k -> 0x40000000 <= id <= 0x7fffffff /\
     exists kt, qimported h id kt (k_data k) /\ q_attrs kt (zlen (k_data k)) = Some (k_attr k) /\ import_ok (k_attr k) (k_data k) = true)
  /\ (forall id kt raw, qimported h id kt raw -> exists a, q_attrs kt (zlen raw) = Some a /\ find_key id (x_keys s) = Some (PK a raw)).
Lemma qkeyed_same h s a o s' : qkeyed h s -> x_keys s' = x_keys s ->
  (forall kt raw k, a = QImport kt raw k -> ho_ret o = OK -> kt = KT_MAKE_KEY_PAIR) ->
  (forall id, a = QDestroy (Some id) -> ho_ret o = OK -> id < 0x40000000) -> qkeyed (h ++ [(a, o)]) s'.
Proof.
  intros [K1 K2] E N1 N2. split.
  - rewrite E. intros id k F. destruct (K1 _ _ F) as (B & kt & I & Q). split; [exact B|]. exists kt. split; [|exact Q].
    apply qimported_snoc. right. split; [exact I|]. intros [X O]. pose proof (N2 _ X O). lia.
  - rewrite E. intros id kt raw I. apply qimported_snoc in I. destruct I as [(N & k & X & ->)|[I _]]; [|exact (K2 _ _ _ I)].
    destruct N. exact (N1 _ _ _ X eq_refl).
Qed.
Lemma qkeyed_step h s a o s' : qkeyed h s -> qrun a s = XRet o s' -> qkeyed (h ++ [(a, o)]) s'.
Proof.
  intros K R. destruct (keys_same a) eqn:SS.
  { apply qkeyed_same with (s := s); auto; [exact (qp_keys _ _ _ _ (qrun_post' _ _ _ _ R) SS)| |]; intros; subst a; discriminate SS. }
  destruct a as [kt raw kid|kid| | | | | | | | | |]; try discriminate SS.
  - destruct (q_import_spec _ _ _ _ _ _ R) as (O1 & O2 & [(O & EK & ES & _)|[(-> & EK & _)|(N & ES & a & id & O & OK_ & A & IO & Ei & ZK & EK)]]).
    + apply qkeyed_same with (s := s); auto; discriminate || contradiction.
    + apply qkeyed_same with (s := s); auto; try discriminate. intros ? ? ? [= <- _ _]. reflexivity.
    + destruct o as [r k0 o1 o2]. cbn [ho_ret ho_kid ho_1 ho_2] in *. subst r k0 o1 o2. destruct K as [K1 K2].
      destruct (FI (x_log s) (map fst (x_keys s)) ltac:(rewrite zlen_map; exact ZK)) as [NI RG]. rewrite <- Ei in NI, RG. split.
      * intros i k. rewrite EK, find_key_cons. destruct (id =? i) eqn:E.
        -- apply Z.eqb_eq in E. subst i. intros [= <-]. split; [exact RG|]. exists kt. split; [|split; [exact A|exact IO]].
           apply qimported_snoc. left. split; [exact N|]. eexists. split; reflexivity.
        -- intros F. destruct (K1 _ _ F) as (B & kt' & I & Q). split; [exact B|]. exists kt'. split; [|exact Q].
           apply qimported_snoc. right. split; [exact I|]. intros [? _]; discriminate.
      * intros i kt' raw' I. rewrite EK, find_key_cons. apply qimported_snoc in I. destruct I as [(_ & k & Ek & Eo)|[I _]].
        -- injection Ek as <- <- <-. injection Eo as <-. rewrite Z.eqb_refl. eauto.
        -- destruct (K2 _ _ _ I) as (a' & A' & F). destruct (id =? i) eqn:E; [|eauto].
           apply Z.eqb_eq in E. subst i. exfalso. apply NI. eapply find_key_in; eauto.
  - destruct (q_destroy_spec _ _ _ _ R) as [(-> & O & ->)|(id & -> & _ & [(SH & O & EK & ES)|(SH & ES & [(O & EK)|[(O & EK)|(O & -> & EK)]])])].
    + apply qkeyed_same with (s := s); auto; discriminate.
    + apply qkeyed_same with (s := s); auto; try discriminate. intros i [= <-] _. destruct (slot_cases _ SH) as [-> | ->]; reflexivity.
    + apply qkeyed_same with (s := s); auto; discriminate || contradiction.
    + destruct K as [K1 K2]. split.
      * intros i k. rewrite EK, find_key_drop. destruct (i =? id) eqn:E; [discriminate|]. intros F.
        destruct (K1 _ _ F) as (B & kt & I & Q). split; [exact B|]. exists kt. split; [|exact Q].
        apply qimported_snoc. right. split; [exact I|]. intros [[= <-] _]. rewrite Z.eqb_refl in E. discriminate.
      * intros i kt raw I. rewrite EK, find_key_drop. apply qimported_snoc in I.
        destruct I as [(_ & k & Ek & _)|[I N]]; [discriminate|].
        replace (i =? id) with false; [eauto|]. symmetry. apply Z.eqb_neq. intros <-. tauto.
    + apply qkeyed_same with (s := s); auto; try discriminate. intros i [= <-] _. reflexivity.
Qed.

(** ** Histories *)
Lemma qruns_ind (P : list (qcall * hout) -> xst -> Prop) :
  (forall h s a o s', P h s -> qrun a s = XRet o s' -> P (h ++ [(a, o)]) s') ->
  forall l s h s' h0, P h0 s -> qruns l s = XRet h s' -> P (h0 ++ h) s'.
Proof.
  intros ST. induction l as [|a l IH]; cbn; intros s h s' h0 P0 R.
  - injection R as <- <-. now rewrite app_nil_r.
  - destruct (qrun a s) as [o s1|] eqn:E; [|discriminate].
    destruct (qruns l s1) as [os s2|] eqn:E2; [|discriminate]. injection R as <- <-.
    replace (h0 ++ (a, o) :: os) with ((h0 ++ [(a, o)]) ++ os) by now rewrite <- app_assoc.
    eapply IH; eauto.
Qed.
Lemma qslotted h s : qreached h s -> slotted h s.
Proof.
  intros [l R]. change h with ([] ++ h). eapply (qruns_ind slotted); [intros; eapply slotted_step; eauto| |exact R].
  exists slot0, slot0. split; [reflexivity|].
  assert (forall id, slot_inv [] id slot0).
  { intros id. left. split; [reflexivity|]. split; [intros (h1 & h2 & ? & ? & E & _)|intros dk (h1 & h2 & ? & ? & ? & E & _)]; destruct h1; discriminate E. }
  split; auto.
Qed.
Lemma qkeyed_runs h s : qreached h s -> qkeyed h s.
Proof.
  intros [l R]. change h with ([] ++ h). eapply (qruns_ind qkeyed); [intros; eapply qkeyed_step; eauto| |exact R].
  split; [discriminate|]. intros id kt raw (_ & h1 & h2 & k & E & _). destruct h1; discriminate E.
Qed.
Lemma qreached_step h s a o s' : qreached h s -> qrun a s = XRet o s' -> qreached (h ++ [(a, o)]) s'.
Proof.
  intros [l R] E. exists (l ++ [a]). revert R. generalize qs0. revert h. induction l as [|b l IH]; cbn; intros h t R.
  - injection R as <- <-. cbn. rewrite E. reflexivity.
  - destruct (qrun b t) as [q t1|]; [|discriminate]. destruct (qruns l t1) as [os t2|] eqn:E2; [|discriminate].
    injection R as <- <-. now rewrite (IH _ _ E2).
Qed.

(** ** Bytes behind a handle *)
Definition held (s : xst) (id : Z) (b : bytes) : Prop :=
  if is_slot_handle id then exists v, live id s = Some v /\ sl_len v <> 0 /\ b = arr_read (sl_len v) (sl_material v)
  else exists k, find_key id (x_keys s) = Some k /\ may_use UExport (k_attr k) = true /\ b = k_data k.
Lemma q_attrs_export kt n a : q_attrs kt n = Some a -> (may_use UExport a = true <-> KT_KEY_AGREEMENT <= kt <= KT_EXPAND).
Proof.
  unfold q_attrs. unfold KT_KEY_AGREEMENT, KT_SIGNATURE, KT_VERIFY, KT_EXTRACT, KT_EXPAND, KT_ENCRYPT, KT_DECRYPT.
  repeat match goal with |- context [if ?b then _ else _] => destruct b eqn:? end; intros [= <-]; cbn; split; try reflexivity; try discriminate; intros; lia.
Qed.
Lemma slot_of h s id : qreached h s -> is_slot_handle id = true -> slot_inv h id (slot_at id s).
Proof.
  intros R SH. destruct (qslotted _ _ R) as (u & v & E & I & J). unfold slot_at. rewrite E.
  destruct (slot_cases _ SH) as [-> | ->].
  - rewrite Z.sub_diag. exact I.
  - replace (SLOT_BASE + 1 - SLOT_BASE) with 1 by lia. exact J.
Qed.
Lemma free_lt i u v : free_slot O [u; v] = Some i -> is_slot_handle (SLOT_BASE + Z.of_nat i) = true.
Proof.
  cbn [free_slot]. destruct (sl_used u); [destruct (sl_used v)|]; intros [= <-]; reflexivity.
Qed.
Lemma handles h s id : qreached h s -> (open_slot h id -> is_slot_handle id = true) /\ (forall dk, holds_pair h id dk -> is_slot_handle id = true).
Proof.
  intros [l R]. change h with ([] ++ h).
  apply (qruns_ind (fun g t => slotted g t /\ (open_slot g id -> is_slot_handle id = true) /\ (forall dk, holds_pair g id dk -> is_slot_handle id = true))) with (3 := R).
  - intros g t a o t' (SL & IH1 & IH2) E. split; [eapply slotted_step; eauto|]. split.
    + intros O. apply open_snoc in O. destruct O as [(raw & k & -> & ->)|[O _]]; [|auto].
      destruct (q_import_spec _ _ _ _ _ _ E) as (_ & _ & [(O & _)|[(_ & _ & i & _ & K & F & _)|(N & _)]]); [destruct O; reflexivity| |destruct N; reflexivity].
      apply some_inj in K. rewrite K. destruct SL as (u & v & ES & _). rewrite ES in F. eapply free_lt; eauto.
    + intros dk H. apply pair_snoc in H. destruct H as [(np & nu & pk & -> & ->)|[H _]]; [|eauto].
      destruct (q_mkpair_spec _ _ _ _ _ _ _ _ E) as (_ & [(O & _)|(i & n & m & w & lg & K & _ & _ & _ & _ & LV & _)]); [destruct O; reflexivity|].
      injection K as <-. unfold live in LV. now destruct (is_slot_handle id).
  - split; [|split; [intros (h1 & h2 & ? & ? & E & _)|intros dk (h1 & h2 & ? & ? & ? & E & _)]; destruct h1; discriminate E].
    apply qslotted. exists []. reflexivity.
Qed.
Lemma not_slot id : 0x40000000 <= id -> is_slot_handle id = false.
Proof.
  intros H. destruct (is_slot_handle id) eqn:E; [|reflexivity]. exfalso. destruct (slot_cases _ E) as [-> | ->]; apply H; reflexivity.
Qed.
Lemma imported_range h s id kt raw : qreached h s -> qimported h id kt raw -> 0x40000000 <= id <= 0x7fffffff.
Proof.
  intros R I. destruct (qkeyed_runs _ _ R) as [K1 K2]. destruct (K2 _ _ _ I) as (a & _ & F). exact (proj1 (K1 _ _ F)).
Qed.
Lemma held_iff h s id b : qreached h s -> held s id b <-> material h id b.
Proof.
  intros R. unfold held, material. destruct (is_slot_handle id) eqn:SH.
  - pose proof (slot_of _ _ _ R SH) as I. unfold live. rewrite SH. cbn [andb]. split.
    + intros (v & LV & N & ->). left. destruct I as [(E & _)|[(E & _)|(dk & E & O & Z & M)]]; rewrite E in LV; cbn [sl_used] in LV; try discriminate LV.
      * injection LV as <-. now destruct N.
      * injection LV as <-. cbn [sl_len sl_material]. rewrite arr_read_exact by exact Z. now apply M.
    + intros [H|(kt & I' & _)].
      * destruct I as [(E & _ & M)|[(E & _ & M)|(dk & E & O & Z & M)]]; try destruct (M _ H). apply M in H. subst b. rewrite E. cbn [sl_used].
        eexists. split; [reflexivity|]. cbn [sl_len sl_material]. split; [discriminate|]. now rewrite arr_read_exact.
      * pose proof (imported_range _ _ _ _ _ R I') as B. rewrite not_slot in SH by lia. discriminate SH.
  - destruct (qkeyed_runs _ _ R) as [K1 K2]. split.
    + intros (k & F & U & ->). destruct (K1 _ _ F) as (_ & kt & I & A & _). right. exists kt. split; [exact I|]. now apply (q_attrs_export _ _ _ A).
    + intros [H|(kt & I & B)]; [rewrite (proj2 (handles _ _ id R) _ H) in SH; discriminate|].
      destruct (K2 _ _ _ I) as (a & A & F). eexists. split; [exact F|]. split; [|reflexivity]. now apply (q_attrs_export _ _ _ A).
Qed.
(** ** Export *)
Lemma live_len h s id v : qreached h s -> live id s = Some v -> 0 <= sl_len v.
Proof.
  unfold live. intros R LV. destruct (is_slot_handle id) eqn:SH; [|discriminate]. cbn [andb] in LV.
  destruct (sl_used (slot_at id s)); [|discriminate]. injection LV as <-.
  destruct (slot_of _ _ _ R SH) as [(-> & _)|[(-> & _)|(dk & -> & _)]]; cbn [sl_len]; [reflexivity|reflexivity|discriminate].
Qed.
Lemma export_ok h id size s b s' : qreached h s -> export_raw_key id size s = XRet (OK, b) s' -> material h id b /\ zlen b <= size.
Proof.
  intros R E. rewrite <- (held_iff _ _ _ _ R). revert E. unfold export_raw_key, held. destruct (is_slot_handle id) eqn:SH.
  - unfold xbind, slot_from_handle. rewrite SH. cbn [negb andb]. destruct (_ || _) eqn:Q; [discriminate|].
    destruct (sl_len (slot_at id s) =? 0) eqn:Z0; [discriminate|].
    destruct (size <? sl_len (slot_at id s)) eqn:SZ; [discriminate|]. intros [= <- <-].
    apply orb_false_iff in Q. destruct Q as [_ Q]. apply negb_false_iff in Q.
    assert (LV : live id s = Some (slot_at id s)) by (unfold live; now rewrite SH, Q).
    split; [eexists; split; [exact LV|]; split; [lia|reflexivity]|].
    rewrite zlen_arr_read by exact (live_len _ _ _ _ R LV). lia.
  - unfold xbind, psa_export_key, xget, xdo. destruct (x_status _ _ =? 0) eqn:ST.
    + destruct (find_key id (x_keys s)) as [k|]; [|discriminate].
      destruct (may_use UExport (k_attr k)) eqn:U; [|discriminate].
      destruct (zlen (k_data k) <=? size) eqn:Z; [|discriminate].
      intros [= <- <-]. split; [eexists; split; [reflexivity|]; split; [exact U|reflexivity]|lia].
    + rewrite ST. discriminate.
Qed.
Lemma export_willing h id size s b : willing L -> qreached h s -> material h id b -> zlen b <= size ->
  exists s', export_raw_key id size s = XRet (OK, b) s'.
Proof.
  intros W R M Z. apply (held_iff _ _ _ _ R) in M. unfold export_raw_key, held in *. destruct (is_slot_handle id) eqn:SH.
  - destruct M as (v & LV & N & ->). pose proof (live_len _ _ _ _ R LV) as P. rewrite zlen_arr_read in Z by exact P.
    unfold xbind, slot_from_handle. rewrite SH. cbn [negb andb]. unfold live in LV. rewrite SH in LV. cbn [andb] in LV.
    destruct (sl_used (slot_at id s)); [|discriminate]. injection LV as <-. cbn [negb].
    replace (MAX_SLOTS <=? id - SLOT_BASE) with false by (unfold is_slot_handle in SH; apply andb_true_iff in SH; lia). cbn [orb].
    replace (sl_len (slot_at id s) =? 0) with false by lia. replace (size <? sl_len (slot_at id s)) with false by lia. eauto.
  - destruct M as (k & F & U & ->). unfold xbind, psa_export_key, xget, xdo. rewrite W. cbn [Z.eqb]. rewrite F, U.
    replace (zlen (k_data k) <=? size) with true by lia. cbn [negb Z.eqb]. eauto.
Qed.

(** ** The operations *)
Lemma wp_export h id size s (Q : Z * bytes -> xst -> Prop) : qreached h s ->
  (forall b s', material h id b -> zlen b <= size -> Q (OK, b) s') -> (forall r b s', (r =? OK) = false -> Q (r, b) s') ->
  wp (fun _ => True) (export_raw_key id size) s Q.
Proof.
  intros R H1 H2. unfold wp. destruct (export_raw_key id size s) as [[r b] s'|] eqn:E; [|exact I].
  destruct (r =? OK) eqn:O; [|auto]. apply Z.eqb_eq in O. subst r. destruct (export_ok _ _ _ _ _ _ R E). auto.
Qed.
Ltac o_step R :=
  lazymatch goal with
  | |- wp _ (export_raw_key _ _) _ _ => apply (wp_export _ _ _ _ _ R); [intros ? ? ? ?|let X := fresh "X" in intros ? ? ? X; rewrite X; cbn [negb]]
  | _ => wp_step
  end; cbv beta iota; wp_ok; cbv beta iota.
Ltac o_go R := wp_start; unfold qrun, out1, outk, out2; repeat o_step R; try exact I; cbn [ho_ret ho_1 ho_2]; intros G; try discriminate G;
  try (subst; match goal with X : (OK =? OK) = false |- _ => discriminate X end); clear G.
Lemma decaps_ok h kid ct ss sl s o s' : qreached h s -> qrun (QDecaps kid ct ss sl) s = XRet o s' -> ho_ret o = OK ->
  exists id c n dk, kid = Some id /\ ct = Some c /\ ss = Some n /\ material h id dk /\ zlen dk = DK_LEN /\ zlen c = CT_LEN /\ SS_LEN <= n
    /\ ho_1 o = x_decaps c dk.
Proof. intros R. o_go R. booly. do 4 eexists. repeat apply conj; try reflexivity; try eassumption; lia. Qed.
Lemma sign_ok h kid i n l s o s' : qreached h s -> qrun (QSign kid i n l) s = XRet o s' -> ho_ret o = OK ->
  exists id m k sk g, kid = Some id /\ i = Some m /\ n = Some k /\ material h id sk /\ zlen sk = SK_LEN /\ SIG_LEN <= k
    /\ ho_1 o = x_dsa_sign g m sk.
Proof. intros R. o_go R. booly. do 5 eexists. repeat apply conj; try reflexivity; try eassumption; lia. Qed.
Lemma verify_ok h kid i sg s o s' : qreached h s -> qrun (QVerify kid i sg) s = XRet o s' -> ho_ret o = OK ->
  exists id m g pk, kid = Some id /\ i = Some m /\ sg = Some g /\ material h id pk /\ zlen pk = PK_LEN /\ x_dsa_ok m g pk = true.
Proof. intros R. o_go R. booly. do 4 eexists. repeat apply conj; try reflexivity; try eassumption; lia. Qed.
Lemma hash_ok i n l s o s' : qrun (QHash i n l) s = XRet o s' -> ho_ret o = OK ->
  exists m k, i = Some m /\ n = Some k /\ HASH_LEN <= k /\ ho_1 o = x_shake m HASH_LEN.
Proof. o_go I. booly. do 2 eexists. repeat apply conj; try reflexivity; lia. Qed.
Lemma take_bits (b : bytes) : zlen b < 2 ^ 61 -> take ((zlen b * 8) mod 2 ^ 64 / 8) b = b.
Proof.
  intros H. pose proof (zlen_nonneg _ b). rewrite Z.mod_small by lia. rewrite Z.div_mul by lia. apply take_all. lia.
Qed.
Lemma extract_ok h kid sa n l s o s' : qreached h s -> qrun (QExtract kid sa n l) s = XRet o s' -> ho_ret o = OK ->
  (forall b, sa = Some b -> zlen b < 2 ^ 61) ->
  exists id salt k ikm, kid = Some id /\ sa = Some salt /\ n = Some k /\ salt <> [] /\ material h id ikm /\ zlen ikm <= IKM_BUF /\ HASH_LEN <= k
    /\ ho_1 o = x_kmac salt ikm (8 * HASH_LEN) [].
Proof.
  intros R. o_go R. intros SB. booly. do 4 eexists. repeat apply conj; try reflexivity; try eassumption; try lia.
  - intros ->. discriminate.
  - rewrite !take_bits; [reflexivity|unfold IKM_BUF in *; lia|now apply SB].
Qed.
Lemma expand_ok h kid i n s o s' : qreached h s -> qrun (QExpand kid i n) s = XRet o s' -> ho_ret o = OK ->
  (forall b, i = Some b -> zlen b < 2 ^ 61) -> (forall k, n = Some k -> 0 <= k < 2 ^ 61) ->
  exists id info k prk, kid = Some id /\ i = Some info /\ n = Some k /\ info <> [] /\ 0 < k /\ material h id prk /\ zlen prk <= HASH_LEN
    /\ ho_1 o = x_kmac prk info (8 * k) [].
Proof.
  intros R. o_go R. intros SB SN. specialize (SN _ eq_refl). booly. do 4 eexists. repeat apply conj; try reflexivity; try eassumption; try lia.
  - intros ->. discriminate.
  - rewrite !take_bits; [|now apply SB|unfold HASH_LEN in *; lia]. rewrite Z.mod_small by lia. now rewrite (Z.mul_comm 8).
Qed.
Lemma extract_uses h id sa n l s o s' : qreached h s -> qrun (QExtract (Some id) sa n l) s = XRet o s' -> ho_ret o = OK -> exists b, material h id b.
Proof. intros R. o_go R. eauto. Qed.
Lemma expand_uses h id i n s o s' : qreached h s -> qrun (QExpand (Some id) i n) s = XRet o s' -> ho_ret o = OK -> exists b, material h id b.
Proof. intros R. o_go R. eauto. Qed.
Lemma q_attrs_seal kt n a : q_attrs kt n = Some a ->
  (may_use UEncrypt a = true -> kt = KT_ENCRYPT) /\ (may_use UDecrypt a = true -> kt = KT_DECRYPT).
Proof.
  unfold q_attrs. repeat match goal with |- context [if ?b then _ else _] => destruct b eqn:? end; intros [= <-]; cbn; split; intros; try discriminate; lia.
Qed.
Lemma encrypt_ok h kid iv ad p n l s o s' : qreached h s -> qrun (QEncrypt kid iv ad p n l) s = XRet o s' -> ho_ret o = OK ->
  exists id v k key, kid = Some id /\ iv = Some v /\ n = Some k /\ qimported h id KT_ENCRYPT key
    /\ ho_1 o = x_seal AesCcm 16 key v ad p /\ zlen (ho_1 o) <= k.
Proof.
  intros R. destruct (qkeyed_runs _ _ R) as [K1 K2]. o_go R. booly.
  match goal with H : find_key _ _ = Some ?k |- _ => destruct (K1 _ _ H) as (_ & kt & I & A & _) end.
  match goal with H : CCM_ALG = _ |- _ => injection H as <- <- end.
  rewrite (proj1 (q_attrs_seal _ _ _ A)) in I by assumption.
  do 4 eexists. do 3 (split; [reflexivity|]). split; [exact I|]. split; [reflexivity|lia].
Qed.
Lemma decrypt_ok h kid iv ad c n l s o s' : qreached h s -> qrun (QDecrypt kid iv ad c n l) s = XRet o s' -> ho_ret o = OK ->
  exists id v x k key, kid = Some id /\ iv = Some v /\ c = Some x /\ n = Some k /\ qimported h id KT_DECRYPT key
    /\ x_open AesCcm 16 key v ad x = Some (ho_1 o) /\ zlen (ho_1 o) <= k.
Proof.
  intros R. destruct (qkeyed_runs _ _ R) as [K1 K2]. o_go R. booly.
  match goal with H : find_key _ _ = Some ?k |- _ => destruct (K1 _ _ H) as (_ & kt & I & A & _) end.
  match goal with H : CCM_ALG = _ |- _ => injection H as <- <- end.
  rewrite (proj2 (q_attrs_seal _ _ _ A)) in I by assumption.
  do 5 eexists. do 4 (split; [reflexivity|]). split; [exact I|]. split; [eassumption|lia].
Qed.
Lemma pair_ok h kid np pl nu ul s o s' : qreached h s -> qrun (QMkPair kid np pl nu ul) s = XRet o s' -> ho_ret o = OK ->
  exists id n u g, kid = Some id /\ np = Some n /\ nu = Some u /\ pl = true /\ ul = true /\ open_slot h id /\ DK_LEN <= n /\ EK_LEN <= u
    /\ (ho_2 o, ho_1 o) = x_kem_pair g.
Proof.
  intros R E O. destruct (q_mkpair_spec _ _ _ _ _ _ _ _ E) as (_ & [(N & _)|(id & n & u & v & g & -> & -> & -> & -> & -> & LV & Zn & Zu & -> & _)]); [contradiction|].
  do 4 eexists. do 5 (split; [reflexivity|]). split; [|split; [exact Zn|split; [exact Zu|]]].
  - unfold live in LV. destruct (is_slot_handle id) eqn:SH; [|discriminate]. cbn [andb] in LV.
    destruct (sl_used (slot_at id s)) eqn:U; [|discriminate].
    destruct (slot_of _ _ _ R SH) as [(S0 & _)|[(_ & O' & _)|(dk & _ & O' & _)]]; auto. rewrite S0 in U. discriminate U.
  - cbn [ho_1 ho_2]. symmetry. apply surjective_pairing.
Qed.
Lemma encaps_ok peer ct cl ss sl s o s' : qrun (QEncaps peer ct cl ss sl) s = XRet o s' -> ho_ret o = OK ->
  exists pk n k g, peer = Some pk /\ ct = Some n /\ ss = Some k /\ zlen pk = EK_LEN /\ CT_LEN <= n /\ SS_LEN <= k
    /\ (ho_1 o, ho_2 o) = x_encaps g pk.
Proof.
  o_go I. booly. do 4 eexists. repeat apply conj; try reflexivity; try lia. symmetry. apply surjective_pairing.
Qed.
End Claims.
