(** Further claims about the classic suites. *)
From Coq Require Import Znumtheory.
From Verif Require Import Bytes Facts Values Monad Psa SuiteX SuiteW SuiteCalls SuiteSpec SuiteLogic SuiteProofs SuiteStore SuiteOps SuitePoint SuiteAccept SuiteClaims.

Section Ops.
Context {L : libs} (h : list (hcall * hout)) (s : xst) (FI : fresh_ids L).

(** ** X25519, Ed25519 *)
Lemma op_agree_x x id pk n o s' : shipped (SX x) -> reached (SX x) h s ->
  hrun (SX x) (HAgree (Some id) (Some pk) (Some n) true) s = XRet o s' -> ho_ret o = OK ->
  exists kt sk, (kt = KT_KEY_AGREEMENT \/ kt = KT_VERIFY) /\ imported h id kt sk /\ zlen sk = 32 /\ zlen pk = 32 /\ n = 32
    /\ ho_1 o = x_smult pk (prepare sk).
Proof.
  intros SH RE E O. destruct (agree_x _ _ _ _ _ _ _ E O) as (k & F & U & Z & ZP & N & Q).
  destruct (found _ _ _ FI RE _ _ F) as (kt & raw & I & AT & D). destruct (attrs_x_export _ _ _ _ AT U) as [IN AE].
  assert (KN : kt <> KT_MAKE_KEY_PAIR) by (intros ->; cbn in IN; intuition discriminate). destruct (D KN) as [Dd Di]. rewrite Dd in *.
  exists kt, raw. repeat split; auto. rewrite AE in Di. destruct IN as [IN|[IN|[IN|[]]]]; auto.
  subst kt. cbn in Di. lia.
Qed.
Lemma op_sign_x x id m n o s' : shipped (SX x) -> reached (SX x) h s ->
  hrun (SX x) (HSign (Some id) (Some m) (Some n) true) s = XRet o s' -> ho_ret o = OK ->
  exists sk, imported h id KT_SIGNATURE sk /\ zlen sk = 64 /\ n = 64 /\ ho_1 o = x_ed_sign sk m.
Proof.
  intros SH RE E O. destruct (sign_x _ _ _ _ _ _ _ E O) as (k & F & U & Z & N & Q).
  destruct (found _ _ _ FI RE _ _ F) as (kt & raw & I & AT & D). destruct (attrs_x_export _ _ _ _ AT U) as [IN AE].
  assert (KN : kt <> KT_MAKE_KEY_PAIR) by (intros ->; cbn in IN; intuition discriminate). destruct (D KN) as [Dd Di]. rewrite Dd in *.
  rewrite AE in Di. destruct IN as [IN|[IN|[IN|[]]]]; subst kt.
  - cbn in Di. lia.
  - exists raw. repeat split; auto.
  - cbn in Di. lia.
Qed.
Lemma op_verify_x x id m sg o s' : shipped (SX x) -> reached (SX x) h s ->
  hrun (SX x) (HVerify (Some id) (Some m) (Some sg)) s = XRet o s' -> ho_ret o = OK ->
  exists kt pk, (kt = KT_KEY_AGREEMENT \/ kt = KT_VERIFY) /\ imported h id kt pk /\ zlen pk = 32 /\ zlen sg = 64
    /\ x_ed_ok sg pk m = true.
Proof.
  intros SH RE E O. destruct (verify_x _ _ _ _ _ _ _ E O) as (k & F & U & Z & N & Q).
  destruct (found _ _ _ FI RE _ _ F) as (kt & raw & I & AT & D). destruct (attrs_x_export _ _ _ _ AT U) as [IN AE].
  assert (KN : kt <> KT_MAKE_KEY_PAIR) by (intros ->; cbn in IN; intuition discriminate). destruct (D KN) as [Dd Di]. rewrite Dd in *.
  exists kt, raw. repeat split; auto. rewrite AE in Di. destruct IN as [IN|[IN|[IN|[]]]]; auto.
  subst kt. cbn in Di. lia.
Qed.

(** ** P-256, P-384 *)
Lemma op_agree_w w id pk n o s' : shipped (SW w) -> reached (SW w) h s ->
  hrun (SW w) (HAgree (Some id) (Some pk) (Some n) true) s = XRet o s' -> ho_ret o = OK ->
  exists sk y, imported h id KT_KEY_AGREEMENT sk /\ zlen pk = cv_len (ws_curve w) /\ n = cv_len (ws_curve w)
    /\ on_curve (ws_curve w) (unbe pk) y = true /\ ho_1 o = x_ecdh (ws_curve w) sk (unbe pk) y.
Proof.
  intros SH RE E O. destruct (shipped_w _ SH) as [F1 F2 F3 F4 F5 F6].
  destruct (agree_w _ _ _ _ _ _ _ F1 F2 E O) as (k & c & F & U & A & CB & ZP & N & PO & _ & Q).
  destruct (found _ _ _ FI RE _ _ F) as (kt & raw & I & AT & D). destruct (attrs_w_ecdh _ _ _ _ AT U A) as [-> AB].
  rewrite AB, F2, F5 in CB. injection CB as <-.
  destruct (decompressed_parts (ws_curve w) pk ZP) as (D1 & D2 & _). rewrite D1, D2, (proj1 (D ltac:(discriminate))) in Q.
  rewrite (point_ok_iff _ _ ZP) in PO.
  exists raw, (y_of (ws_curve w) pk). repeat split; auto. congruence.
Qed.
Lemma op_sign_w w id m n o s' : shipped (SW w) -> reached (SW w) h s ->
  hrun (SW w) (HSign (Some id) (Some m) (Some n) true) s = XRet o s' -> ho_ret o = OK ->
  exists sk l, imported h id KT_SIGNATURE sk /\ n = cs_sign (table (SW w)) /\ zlen (ho_1 o) = n
    /\ ho_1 o = x_ecdsa l (ws_curve w) sk (x_hash (ws_hash w) m).
Proof.
  intros SH RE E O. destruct (shipped_w _ SH) as [F1 F2 F3 F4 F5 F6].
  destruct (sign_w _ _ _ _ _ _ _ E O) as (k & c & g & l & F & U & A & CB & N & Z & Q).
  destruct (found _ _ _ FI RE _ _ F) as (kt & raw & I & AT & D). destruct (attrs_w_sign _ _ _ _ AT U) as (-> & _ & AB).
  rewrite AB, F2, F5 in CB. injection CB as <-. rewrite (proj1 (D ltac:(discriminate))) in Q.
  exists raw, l. repeat split; auto.
Qed.
Lemma op_verify_w w id m sg o s' : shipped (SW w) -> reached (SW w) h s ->
  hrun (SW w) (HVerify (Some id) (Some m) (Some sg)) s = XRet o s' -> ho_ret o = OK ->
  exists pk, imported h id KT_VERIFY pk /\ point_ok (ws_curve w) pk = true /\ zlen sg = cs_sign (table (SW w))
    /\ x_ecdsa_ok (ws_curve w) pk (x_hash (ws_hash w) m) sg = true.
Proof.
  intros SH RE E O. destruct (shipped_w _ SH) as [F1 F2 F3 F4 F5 F6].
  destruct (verify_w _ _ _ _ _ _ _ E O) as (k & c & F & U & CB & Z & Q).
  destruct (found _ _ _ FI RE _ _ F) as (kt & raw & I & AT & D). destruct (attrs_w_verify _ _ _ _ AT U) as (-> & ATy & AB).
  rewrite AB, F2, F5 in CB. injection CB as <-. destruct (D ltac:(discriminate)) as [Dd Di]. rewrite Dd in *.
  exists raw. repeat split; auto. revert Di. unfold import_ok. rewrite ATy, AB, F2, F5. auto.
Qed.
(** A pair: the private key the handle stands for, and its x-coordinate. *)
Lemma op_mkpair_w w id np nu o s' : sized L -> shipped (SW w) -> reached (SW w) h s ->
  hrun (SW w) (HMkPair (Some id) (Some np) true (Some nu) true) s = XRet o s' -> ho_ret o = OK ->
  (exists raw, imported h id KT_MAKE_KEY_PAIR raw) /\ zlen (ho_1 o) = cv_len (ws_curve w) /\ zlen (ho_1 o) <= np
  /\ (nu = cv_len (ws_curve w) ->
      exists x y, x_public (ws_curve w) (ho_1 o) = (x, y) /\ on_curve (ws_curve w) x y = true
        /\ zlen (ho_2 o) = nu /\ unbe (ho_2 o) = x).
Proof.
  intros SZ SH RE E O. destruct (shipped_w _ SH) as [F1 F2 F3 F4 F5 F6].
  destruct (mkpair_w _ _ _ _ _ _ _ E O) as (k & c & F & U & CB & Z & ZN & NU & Q1 & Q2).
  destruct (found _ _ _ FI RE _ _ F) as (kt & raw & I & AT & D). destruct (attrs_w_export _ _ _ _ AT U) as (-> & AE).
  rewrite AE in CB. cbn [a_bits] in CB. rewrite F2, F5 in CB. injection CB as <-. rewrite <- Q1 in *.
  split; [eauto|]. split; [congruence|]. split; [exact ZN|]. intros ->.
  pose proof (sz_public _ SZ (ws_curve w) (ho_1 o)) as OC.
  destruct (x_public (ws_curve w) (ho_1 o)) as [x y] eqn:XP. cbn [fst snd] in *. exists x, y. split; [reflexivity|]. split; [exact OC|].
  pose proof (cv_bounds (ws_curve w)) as (B & _ & N).
  assert (PL : zlen (point (ws_curve w) x y) = ws_uncomp w).
  { unfold point. rewrite zlen_cons, zlen_app, !zlen_be. lia. }
  rewrite arr_read_exact in Q2 by exact PL. unfold point in Q2. change (drop 1 (4 :: ?l)) with l in Q2.
  rewrite take_app_exact in Q2 by (rewrite zlen_be; lia). rewrite Q2. split; [rewrite zlen_be; lia|].
  apply on_curve_iff in OC. apply CborProofs.unbe_be. rewrite <- N. lia.
Qed.

(** ** Keys serve their purpose only *)
Lemma purposes S a id kt o s' : shipped S -> reached S h s ->
  handle_of a = Some id -> purpose a = Some kt -> hrun S a s = XRet o s' -> ho_ret o = OK ->
  (exists w, S = SW w) \/ (In kt [KT_SIGNATURE; KT_EXTRACT; KT_EXPAND; KT_ENCRYPT; KT_DECRYPT]) ->
  exists raw, imported h id kt raw.
Proof.
  intros SH RE HD PU E O W.
  assert (C : complete a = true) by (eapply ok_complete; eauto; intros ? ? ? ->; discriminate).
  destruct a; cbn in HD; try discriminate HD; cbn in PU; try discriminate PU; injection PU as <-; subst kid; cbn in C.
  all: repeat match goal with
         | H : context [filled ?k] |- _ => is_var k; destruct k; [cbn [filled] in H|rewrite ?andb_false_r in H; discriminate H]
         | H : context [room ?k] |- _ => is_var k; destruct k; [cbn [room] in H|rewrite ?andb_false_r in H; discriminate H]
         end.
  all: repeat match goal with
         | b : bool |- _ => destruct b; [|rewrite ?andb_false_r in C; discriminate C]
         end.
  all: destruct W as [[w ->]|W]; [|destruct S as [x|w]]; try (exfalso; clear - W; cbn in W; unfold KT_MAKE_KEY_PAIR, KT_KEY_AGREEMENT, KT_VERIFY, KT_SIGNATURE, KT_EXTRACT, KT_EXPAND, KT_ENCRYPT, KT_DECRYPT in W; lia).
  - destruct (mkpair_w _ _ _ _ _ _ _ E O) as (k & c & F & U & CB & _).
    destruct (found _ _ _ FI RE _ _ F) as (kt & raw & I & AT & D). destruct (attrs_w_export _ _ _ _ AT U) as (-> & AE). eauto.
  - destruct (op_agree_w _ _ _ _ _ _ SH RE E O) as (sk & y & I & _). eauto.
  - destruct (op_sign_w _ _ _ _ _ _ SH RE E O) as (sk & y & I & _). eauto.
  - destruct (op_sign_x _ _ _ _ _ _ SH RE E O) as (sk & I & _). eauto.
  - destruct (op_sign_w _ _ _ _ _ _ SH RE E O) as (sk & y & I & _). eauto.
  - destruct (op_verify_w _ _ _ _ _ _ SH RE E O) as (pk & I & _). eauto.
  - destruct (op_extract _ _ _ FI RE _ _ _ _ _ E O) as (r & I & _). eauto.
  - destruct (op_extract _ _ _ FI RE _ _ _ _ _ E O) as (r & I & _). eauto.
  - destruct (op_extract _ _ _ FI RE _ _ _ _ _ E O) as (r & I & _). eauto.
  - destruct (op_expand _ _ _ FI RE _ _ _ _ _ E O) as (r & I & _). eauto.
  - destruct (op_expand _ _ _ FI RE _ _ _ _ _ E O) as (r & I & _). eauto.
  - destruct (op_expand _ _ _ FI RE _ _ _ _ _ E O) as (r & I & _). eauto.
  - destruct (op_encrypt _ _ _ FI SH RE _ _ _ _ _ _ _ E O) as (r & I & _). eauto.
  - destruct (op_encrypt _ _ _ FI SH RE _ _ _ _ _ _ _ E O) as (r & I & _). eauto.
  - destruct (op_encrypt _ _ _ FI SH RE _ _ _ _ _ _ _ E O) as (r & I & _). eauto.
  - destruct (op_decrypt _ _ _ FI SH RE _ _ _ _ _ _ _ E O) as (r & I & _). eauto.
  - destruct (op_decrypt _ _ _ FI SH RE _ _ _ _ _ _ _ E O) as (r & I & _). eauto.
  - destruct (op_decrypt _ _ _ FI SH RE _ _ _ _ _ _ _ E O) as (r & I & _). eauto.
Qed.
End Ops.

(** ** No faults *)
Section NoFault.
Context {L : libs}.
Ltac nf := wp_go; try exact I; try lia; try discriminate; try congruence.
Lemma no_fault S a s : shipped S -> sane S a -> exists o s', hrun S a s = XRet o s'.
Proof.
  intros SH SA. cut (wp (fun _ => False) (hrun S a) s (fun _ _ => True)).
  { intros H. apply wp_total in H. destruct H as (o & s' & E & _). eauto. }
  destruct S as [x|w].
  - destruct a; unfold hrun, out1, outk; nf.
  - destruct (shipped_w _ SH) as [F1 F2 F3 F4 F5 F6].
    destruct a; unfold hrun, out1, outk; try (nf; fail).
    + destruct pub; unfold sane in SA; nf.
Qed.
End NoFault.
