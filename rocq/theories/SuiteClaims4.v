(** Which imports succeed. *)
From Verif Require Import Bytes Facts Values Monad Psa SuiteX SuiteW SuiteCalls SuiteSpec SuiteLogic SuiteProofs SuiteStore
  SuiteOps SuitePoint SuiteAccept SuiteClaims SuiteClaims2 SuiteClaims3.

(** The store holds no more keys than there were calls. *)
Lemma drop_key_len id l : zlen (drop_key id l) <= zlen l.
Proof.
  unfold drop_key. induction l as [|e l IH]; cbn [filter]; [lia|]. destruct (negb (fst e =? id)); rewrite ?zlen_cons; lia.
Qed.

Section Import.
Context {L : libs}.
Lemma keys_step S a s o s' : hrun S a s = XRet o s' -> zlen (x_keys s') <= zlen (x_keys s) + 1.
Proof.
  intros R.
  destruct a; try (rewrite (po_keys _ _ _ _ (hrun_post' _ _ _ _ _ R)) by reflexivity; lia).
  - destruct (import_spec _ _ _ _ _ _ _ R) as (_ & _ & [(_ & _ & _ & _ & -> & _)|[(_ & EK & _)|(a & d & i & _ & _ & _ & _ & _ & EK & _)]]).
    + lia.
    + rewrite EK. lia.
    + rewrite EK, zlen_cons. lia.
  - destruct (destroy_spec _ _ _ _ _ R) as [(_ & _ & ->)|(i & Ei & K & [(_ & EK)|(_ & [(-> & EK)|(NZ & _ & EK)])])]; try rewrite EK; try lia.
    pose proof (drop_key_len i (x_keys s)). lia.
Qed.
Lemma keys_count S h s : reached S h s -> zlen (x_keys s) <= zlen h.
Proof.
  intros [l R]. cut (zlen (x_keys s) <= zlen ([] ++ h)); [auto|].
  apply (hruns_ind S (fun g t => zlen (x_keys t) <= zlen g)) with (3 := R).
  - intros g t b q t' IH E. pose proof (keys_step _ _ _ _ _ E). rewrite zlen_app. unfold zlen at 3. cbn [length]. lia.
  - cbn. lia.
Qed.

Lemma import_run S kt raw k a s : willing L -> attrs_for S kt (zlen raw) = Some a -> zlen (x_keys s) < KEY_IDS ->
  (kt <> KT_MAKE_KEY_PAIR -> import_ok a raw = true) ->
  (kt = KT_MAKE_KEY_PAIR -> a_type a = TyEccPair /\ exists c, curve_of_bits (a_bits a) = Some c) ->
  exists id s', hrun S (HImport kt raw (Some k)) s = XRet (HO OK (Some id) [] []) s'.
Proof.
  intros W A Z I G.
  assert (ZT : (zlen (x_keys s) <? KEY_IDS) = true) by (apply Z.ltb_lt; exact Z).
  unfold hrun, outk. destruct S as [x|w].
  - unfold attrs_for in A. unfold x_key_import. destruct (kt =? KT_MAKE_KEY_PAIR) eqn:M; [apply Z.eqb_eq in M; subst kt; discriminate A|].
    rewrite A. unfold xbind, xneed, xret, psa_import_key, xdo. rewrite W. cbn [Z.eqb]. rewrite ZT. cbn [negb].
    rewrite I by lia. cbn [negb Z.eqb]. eauto.
  - unfold attrs_for in A. unfold w_key_import. rewrite A. destruct (kt =? KT_MAKE_KEY_PAIR) eqn:M.
    + destruct G as [G1 [c G2]]; [lia|]. unfold xbind, xneed, xret, psa_generate_key, xdo. rewrite W. cbn [Z.eqb]. rewrite ZT, G1, G2. cbn [negb].
      cbn [negb Z.eqb]. eauto.
    + unfold xbind, xneed, xret, psa_import_key, xdo. rewrite W. cbn [Z.eqb]. rewrite ZT. cbn [negb]. rewrite I by lia. cbn [negb Z.eqb]. eauto.
Qed.
Lemma importable_attrs S kt raw : shipped S -> kept S kt ->
  exists a, attrs_for S kt (zlen raw) = Some a /\ (kt <> KT_MAKE_KEY_PAIR -> (import_ok a raw = true <-> importable S kt raw))
    /\ (kt = KT_MAKE_KEY_PAIR -> a_type a = TyEccPair /\ exists c, curve_of_bits (a_bits a) = Some c).
Proof.
  intros SH KP.
  assert (D : forall n, (8 * n) / 8 = n) by (intros; rewrite Z.mul_comm; apply Z.div_mul; discriminate).
  assert (C : In kt [1;2;3;4;5;6;7] \/ kt = 0 /\ exists w, S = SW w) by
    (destruct KP as [KP|KP]; [left; cbn; lia|right; exact KP]).
  destruct C as [C|[-> [w ->]]].
  - cbn [In] in C. repeat (destruct C as [<-|C]); try destruct C;
    destruct (shipped_cases _ SH) as [-> | [-> | [-> | ->]]]; (eexists; split; [reflexivity|]; split; [intros _|discriminate]);
    unfold import_ok, importable; cbn [a_type a_bits table cs_key xs_table ws_table suite_0 suite_4 suite_2 suite_24 ws_curve cv_len xs_aead_type];
    rewrite ?D; unfold KT_MAKE_KEY_PAIR, KT_KEY_AGREEMENT, KT_VERIFY, KT_SIGNATURE, KT_EXTRACT, KT_EXPAND, KT_ENCRYPT, KT_DECRYPT in *;
    unfold X25519_SHARED, ED25519_PRIV, ED25519_PUB; rewrite ?D; try (cbn; lia).
  - eexists. split; [reflexivity|]. split; [intros N; now elim N|]. intros _. split; [reflexivity|].
    destruct (shipped_cases _ SH) as [E | [E | [E | E]]]; try discriminate E; injection E as ->; eexists; reflexivity.
Qed.
(** Importable keys are accepted. *)
Lemma import_willing S h s kt raw k : willing L -> shipped S -> reached S h s -> zlen h < KEY_IDS -> kept S kt -> importable S kt raw ->
  exists id s', hrun S (HImport kt raw (Some k)) s = XRet (HO OK (Some id) [] []) s'.
Proof.
  intros W SH R Z KP I. pose proof (keys_count _ _ _ R). destruct (importable_attrs S kt raw SH KP) as (a & A & A1 & A2).
  eapply import_run; eauto; [lia|]. intros N. now apply A1.
Qed.
(** Nothing else is. *)
Lemma import_only S s kt raw k o s' : shipped S -> kept S kt -> hrun S (HImport kt raw k) s = XRet o s' -> ho_ret o = OK ->
  importable S kt raw.
Proof.
  intros SH KP R O. destruct (importable_attrs S kt raw SH KP) as (a & A & A1 & A2).
  destruct (import_spec _ _ _ _ _ _ _ R) as (_ & _ & [(_ & A' & _)|[(O' & _)|(a' & d & i & _ & _ & A' & _ & _ & _ & D & _)]]).
  - congruence.
  - rewrite O in O'. discriminate.
  - rewrite A in A'. apply some_inj in A'. subst a'. destruct (Z.eq_dec kt KT_MAKE_KEY_PAIR) as [->|N].
    + destruct KP as [KP|[_ [w ->]]]; [unfold KT_MAKE_KEY_PAIR in KP; lia|]. unfold importable. auto.
    + apply A1; [exact N|]. now apply D.
Qed.
End Import.
