(** Calls that must succeed, and two parties. *)
From Coq Require Import Znumtheory.
From Verif Require Import Bytes Facts Values Monad Psa SuiteX SuiteW SuiteCalls SuiteSpec SuiteLogic SuiteProofs SuiteStore SuiteOps SuitePoint SuiteAccept SuiteClaims SuiteClaims2.

Lemma some_inj {A} (a b : A) : Some a = Some b -> a = b.
Proof. congruence. Qed.

Section Accept.
Context {L : libs} (S : suite) (h : list (hcall * hout)) (s : xst).
Context (FI : fresh_ids L) (SH : shipped S) (RE : reached S h s).
Lemma held id kt raw a : imported h id kt raw -> attrs_for S kt (zlen raw) = Some a ->
  exists k, find_key id (x_keys s) = Some k /\ k_attr k = a /\ (kt <> KT_MAKE_KEY_PAIR -> k_data k = raw)
    /\ (kt = KT_MAKE_KEY_PAIR -> exists l c, curve_of_bits (a_bits a) = Some c /\ k_data k = x_private l c).
Proof. apply (reached_keyed S h s FI RE). Qed.
Lemma held_data id kt raw a : imported h id kt raw -> attrs_for S kt (zlen raw) = Some a -> kt <> KT_MAKE_KEY_PAIR ->
  find_key id (x_keys s) = Some (PK a raw).
Proof. intros I A N. destruct (held _ _ _ _ I A) as ([a' d] & F & E & D & _). cbn in *. rewrite F, E, (D N). reflexivity. Qed.

Lemma extract_willing (W : willing L) id ikm salt n : imported h id KT_EXTRACT ikm -> salt <> [] -> 0 < n <= hash_size (hash_of S) ->
  exists s', hrun S (HExtract (Some id) (Some salt) (Some n) true) s = XRet (HO OK None (take n (x_extract (hash_of S) salt ikm)) []) s'.
Proof.
  intros I N R. apply (extract_accepts W) with (b := 8 * zlen ikm); auto; [eapply reached_closed; eauto|].
  eapply held_data; [exact I| |discriminate]. destruct S; reflexivity.
Qed.
Lemma expand_willing (W : willing L) id prk info n : imported h id KT_EXPAND prk -> info <> [] -> 0 < n <= 255 * hash_size (hash_of S) ->
  exists s', hrun S (HExpand (Some id) (Some info) (Some n)) s = XRet (HO OK None (x_expand (hash_of S) prk info n) []) s'.
Proof.
  intros I N R. apply (expand_accepts W) with (b := 8 * zlen prk); auto; [eapply reached_closed; eauto|].
  eapply held_data; [exact I| |discriminate]. destruct S; reflexivity.
Qed.
Lemma encrypt_willing (W : willing L) id key iv ad p n : sized L -> imported h id KT_ENCRYPT key -> iv <> [] -> ad <> [] ->
  zlen p + cs_tag (table S) <= n ->
  exists s', hrun S (HEncrypt (Some id) (Some iv) (Some ad) p (Some n) true) s
    = XRet (HO OK None (x_seal (aead_of S) (cs_tag (table S)) key iv ad p) []) s'.
Proof.
  intros SZ I N1 N2 R. assert (T : 0 < cs_tag (table S)) by (destruct (shipped_cases _ SH) as [-> | [-> | [-> | ->]]]; reflexivity).
  pose proof (zlen_nonneg _ p).
  assert (exists a, attrs_for S KT_ENCRYPT (zlen key) = Some a /\ a_usage a = [UEncrypt] /\ a_alg a = AlgAead (aead_of S) (cs_tag (table S)))
    as ([u al ty b] & A & E1 & E2) by (destruct S; eexists; repeat split).
  cbn in E1, E2. subst u al. eapply (encrypt_accepts W); auto; [|lia|rewrite (sz_seal _ SZ) by lia; exact R].
  eapply held_data; [exact I|exact A|discriminate].
Qed.
Lemma decrypt_willing (W : willing L) id key iv ad c p n : imported h id KT_DECRYPT key -> iv <> [] -> ad <> [] -> c <> [] ->
  x_open (aead_of S) (cs_tag (table S)) key iv ad c = Some p -> zlen p <= n ->
  exists s', hrun S (HDecrypt (Some id) (Some iv) (Some ad) (Some c) n true) s = XRet (HO OK None p []) s'.
Proof.
  intros I N1 N2 N3 O R.
  assert (exists a, attrs_for S KT_DECRYPT (zlen key) = Some a /\ a_usage a = [UDecrypt] /\ a_alg a = AlgAead (aead_of S) (cs_tag (table S)))
    as ([u al ty b] & A & E1 & E2) by (destruct S; eexists; repeat split).
  cbn in E1, E2. subst u al. eapply (decrypt_accepts W); eauto. eapply held_data; [exact I|exact A|discriminate].
Qed.
Lemma hash_willing (W : willing L) i n : sized L -> i <> [] -> hash_size (hash_of S) <= n ->
  exists s', hrun S (HHash (Some i) (Some n) true) s = XRet (HO OK None (x_hash (hash_of S) i) []) s'.
Proof. intros SZ N R. pose proof (hash_pos (hash_of S)). apply (hash_accepts W); auto; [lia|]. now rewrite (sz_hash _ SZ). Qed.
End Accept.

Section AcceptX.
Context {L : libs} (x : xsuite) (h : list (hcall * hout)) (s : xst).
Context (FI : fresh_ids L) (W : willing L) (RE : reached (SX x) h s).
Lemma agree_x_willing id sk pk : imported h id KT_KEY_AGREEMENT sk -> zlen sk = 32 -> zlen pk = 32 ->
  exists s', hrun (SX x) (HAgree (Some id) (Some pk) (Some 32) true) s = XRet (HO OK None (x_smult pk (prepare sk)) []) s'.
Proof.
  intros I Z P. eapply (agree_x_accepts W); auto; [eapply (held_data _ _ _ FI RE); [exact I|reflexivity|discriminate]|reflexivity].
Qed.
Lemma sign_x_willing id sk m : imported h id KT_SIGNATURE sk -> zlen sk = 64 -> m <> [] ->
  exists s', hrun (SX x) (HSign (Some id) (Some m) (Some 64) true) s = XRet (HO OK None (x_ed_sign sk m) []) s'.
Proof.
  intros I Z P. eapply (sign_x_accepts W); auto; [eapply (held_data _ _ _ FI RE); [exact I|reflexivity|discriminate]|reflexivity].
Qed.
Lemma verify_x_willing id pk m sg : imported h id KT_VERIFY pk -> zlen pk = 32 -> m <> [] -> zlen sg = 64 -> x_ed_ok sg pk m = true ->
  exists s', hrun (SX x) (HVerify (Some id) (Some m) (Some sg)) s = XRet (HO OK None [] []) s'.
Proof.
  intros I Z P G V. eapply (verify_x_accepts W); eauto; [eapply (held_data _ _ _ FI RE); [exact I|reflexivity|discriminate]|reflexivity].
Qed.
End AcceptX.
Section AcceptW.
Context {L : libs} (w : wsuite) (h : list (hcall * hout)) (s : xst).
Context (FI : fresh_ids L) (SZ : sized L) (W : willing L) (SH : shipped (SW w)) (RE : reached (SW w) h s).
Lemma agree_w_willing id sk pk y : prime (cv_p (ws_curve w)) -> imported h id KT_KEY_AGREEMENT sk ->
  zlen pk = cv_len (ws_curve w) -> on_curve (ws_curve w) (unbe pk) y = true -> y <> 0 ->
  exists s' y', (y' = y \/ y' = cv_p (ws_curve w) - y)
   /\ hrun (SW w) (HAgree (Some id) (Some pk) (Some (cv_len (ws_curve w))) true) s
       = XRet (HO OK None (x_ecdh (ws_curve w) sk (unbe pk) y') []) s'.
Proof.
  intros P I Z OC NZ. pose proof (shipped_w _ SH) as F.
  rewrite <- (wf_ecdh _ F). eapply (agree_w_accepts W); auto.
  - eapply (held_data _ _ _ FI RE); [exact I|reflexivity|discriminate].
  - rewrite (wf_ecc _ F). exact Z.
Qed.
Lemma sign_w_willing id sk m : imported h id KT_SIGNATURE sk -> m <> [] ->
  exists l s', hrun (SW w) (HSign (Some id) (Some m) (Some (cs_sign (table (SW w)))) true) s
    = XRet (HO OK None (x_ecdsa l (ws_curve w) sk (x_hash (ws_hash w) m)) []) s'.
Proof.
  intros I N. apply (sign_w_accepts W) with (h := ws_hash w) (u := [USignMsg; USignHash]); auto; [apply shipped_w, SH|].
  eapply (held_data _ _ _ FI RE); [exact I|reflexivity|discriminate].
Qed.
Lemma verify_w_willing id pk m sg : imported h id KT_VERIFY pk -> m <> [] -> zlen sg = cs_sign (table (SW w)) ->
  x_ecdsa_ok (ws_curve w) pk (x_hash (ws_hash w) m) sg = true ->
  exists s', hrun (SW w) (HVerify (Some id) (Some m) (Some sg)) s = XRet (HO OK None [] []) s'.
Proof.
  intros I N G V. apply (verify_w_accepts W) with (h := ws_hash w) (u := [UVerifyMsg; UVerifyHash]) (d := pk); auto; [apply shipped_w, SH|].
  eapply (held_data _ _ _ FI RE); [exact I|reflexivity|discriminate].
Qed.
End AcceptW.

(** ** Two parties *)
Lemma in_reached {L : libs} S h s a o : reached S h s -> In (a, o) h ->
  exists h1 s1 s2, reached S h1 s1 /\ hrun S a s1 = XRet o s2.
Proof.
  intros [l R] I.
  set (P := fun (g : list (hcall * hout)) (t : xst) => reached S g t /\ forall b q, In (b, q) g ->
    exists h1 s1 s2, reached S h1 s1 /\ hrun S b s1 = XRet q s2).
  assert (Q : P ([] ++ h) s).
  { eapply hruns_ind; [| |exact R].
    - intros g t b q t' [G IH] E. split; [eapply reached_step; eauto|]. intros b' q' I'.
      apply in_app_iff in I'. destruct I' as [I'|[I'|[]]]; [auto|]. injection I' as <- <-. eauto.
    - split; [exists []; reflexivity|]. intros ? ? []. }
  now apply Q.
Qed.
Lemma pair_x {L : libs} x h s sk pk : reached (SX x) h s -> made_pair (SX x) h sk pk -> exists seed, (sk, pk) = x_keygen seed.
Proof.
  intros RE (kid & np & I). destruct (in_reached _ _ _ _ _ RE I) as (h1 & s1 & s2 & _ & E).
  destruct (mkpair_x _ _ _ _ _ _ _ _ _ E eq_refl) as (seed & a & b & _ & _ & _ & _ & Q & _). eauto.
Qed.
Lemma pair_w {L : libs} w h s sk pk : fresh_ids L -> sized L -> shipped (SW w) -> reached (SW w) h s -> made_pair (SW w) h sk pk ->
  exists y, x_public (ws_curve w) sk = (unbe pk, y) /\ on_curve (ws_curve w) (unbe pk) y = true.
Proof.
  intros FI SZ SH RE (kid & np & I). destruct (in_reached _ _ _ _ _ RE I) as (h1 & s1 & s2 & R1 & E).
  assert (C : complete (HMkPair kid (Some np) true (Some (cs_ecc (table (SW w)))) true) = true)
    by (eapply ok_complete; eauto; discriminate).
  destruct kid as [id|]; [|discriminate C].
  destruct (op_mkpair_w _ _ FI _ _ _ _ _ _ SZ SH R1 E eq_refl) as (_ & _ & _ & Q).
  destruct (Q (wf_ecc _ (shipped_w _ SH))) as (X & y & E1 & E2 & _ & E3). cbn in E1, E3. subst X. eauto.
Qed.

Section Two.
Context (A B : libs) (S : suite) (hA hB : list (hcall * hout)) (sA sB : xst).
Context (AL : alike A B) (SH : shipped S) (FA : fresh_ids A) (FB : fresh_ids B) (ZA : sized A) (ZB : sized B).
Context (RA : @reached A S hA sA) (RB : @reached B S hB sB).
Lemma shared_secret skA pkA skB pkB iA iB n m oA oB tA tB :
  made_pair S hA skA pkA -> made_pair S hB skB pkB ->
  imported hA iA KT_KEY_AGREEMENT skA -> imported hB iB KT_KEY_AGREEMENT skB ->
  @hrun A S (HAgree (Some iA) (Some pkB) (Some n) true) sA = XRet oA tA -> ho_ret oA = OK ->
  @hrun B S (HAgree (Some iB) (Some pkA) (Some m) true) sB = XRet oB tB -> ho_ret oB = OK ->
  ho_1 oA = ho_1 oB.
Proof.
  intros MA MB IA IB EA OA EB OB. destruct S as [x|w].
  - destruct (pair_x _ _ _ _ _ RA MA) as [s1 P1]. destruct (pair_x _ _ _ _ _ RB MB) as [s2 P2].
    destruct (agree_x _ _ _ _ _ _ _ EA OA) as (ka & F1 & _ & _ & _ & _ & Q1).
    destruct (agree_x _ _ _ _ _ _ _ EB OB) as (kb & F2 & _ & _ & _ & _ & Q2).
    rewrite (held_data _ _ _ FA RA _ _ _ _ IA eq_refl ltac:(discriminate)) in F1.
    rewrite (held_data _ _ _ FB RB _ _ _ _ IB eq_refl ltac:(discriminate)) in F2.
    injection F1 as <-. injection F2 as <-. cbn [k_data] in *. rewrite Q1, Q2.
    pose proof (al_x _ _ AL s1 s2) as E. rewrite <- P1, <- P2 in E. exact E.
  - destruct (pair_w _ _ _ _ _ FA ZA SH RA MA) as (y1 & P1 & C1). destruct (pair_w _ _ _ _ _ FB ZB SH RB MB) as (y2 & P2 & C2).
    destruct (shipped_w _ SH) as [F1 F2 F3 F4 F5 F6].
    assert (G : forall (L : libs) h s i sk pk q o t, fresh_ids L -> reached (SW w) h s -> imported h i KT_KEY_AGREEMENT sk ->
      hrun (SW w) (HAgree (Some i) (Some pk) (Some q) true) s = XRet o t -> ho_ret o = OK ->
      exists y, on_curve (ws_curve w) (unbe pk) y = true /\ ho_1 o = x_ecdh (ws_curve w) sk (unbe pk) y).
    { intros L h s i sk pk q o t FL RL I E O.
      destruct (agree_w _ _ _ _ _ _ _ F1 F2 E O) as (k & c & F & U & A' & CB & ZP & N & PO & _ & Q).
      rewrite (held_data _ _ _ FL RL _ _ _ _ I eq_refl ltac:(discriminate)) in F. apply some_inj in F. subst k.
      cbn [k_data k_attr a_bits] in *. rewrite F2, F5 in CB. injection CB as <-.
      destruct (decompressed_parts (ws_curve w) pk ZP) as (D1 & D2 & _). rewrite D1, D2 in Q.
      rewrite (point_ok_iff _ _ ZP) in PO. eauto. }
    destruct (G _ _ _ _ _ _ _ _ _ FA RA IA EA OA) as (z1 & D1 & Q1). destruct (G _ _ _ _ _ _ _ _ _ FB RB IB EB OB) as (z2 & D2 & Q2).
    rewrite Q1, Q2. pose proof (al_ecdh _ _ AL (ws_curve w) skA skB z1 z2) as E. rewrite P1, P2 in E. cbn [fst] in E.
    now apply E.
Qed.
Lemma sealed_opens key iA iB iv ad p n m o tA : willing B ->
  imported hA iA KT_ENCRYPT key -> imported hB iB KT_DECRYPT key ->
  @hrun A S (HEncrypt (Some iA) (Some iv) (Some ad) p (Some n) true) sA = XRet o tA -> ho_ret o = OK -> zlen p <= m ->
  exists tB, @hrun B S (HDecrypt (Some iB) (Some iv) (Some ad) (Some (ho_1 o)) m true) sB = XRet (HO OK None p []) tB.
Proof.
  intros WB IA IB E O Z.
  assert (C : complete (HEncrypt (Some iA) (Some iv) (Some ad) p (Some n) true) = true) by exact (ok_complete _ _ _ _ _ E O ltac:(intros; discriminate)).
  destruct (encrypt_ok _ _ _ _ _ _ _ _ _ E O) as (k & f & t & F & AA & U & Q & _).
  destruct (reached_keyed _ _ _ FA RA) as [_ K2].
  assert (exists a, attrs_for S KT_ENCRYPT (zlen key) = Some a /\ a_alg a = AlgAead (aead_of S) (cs_tag (table S))) as (a & EA & EB)
    by (destruct S; eexists; repeat split).
  rewrite (held_data _ _ _ FA RA _ _ _ _ IA EA ltac:(discriminate)) in F. apply some_inj in F. subst k. cbn [k_attr k_data] in *.
  rewrite EB in AA. injection AA as <- <-.
  assert (T : 0 < cs_tag (table S)) by (destruct (shipped_cases _ SH) as [-> | [-> | [-> | ->]]]; reflexivity).
  eapply (decrypt_willing S hB sB FB SH RB WB); [exact IB| | | | |exact Z].
  - intros ->. cbn in C. discriminate C.
  - intros ->. cbn in C. rewrite ?andb_false_r in C. discriminate C.
  - intros E0. rewrite E0 in Q. apply (f_equal zlen) in Q. rewrite (sz_seal _ ZA) in Q by lia. pose proof (zlen_nonneg _ p).
    unfold zlen in Q at 1. cbn in Q. lia.
  - rewrite Q. apply (al_aead _ _ AL).
Qed.
Lemma signed_verifies sk pk iA iB m n o tA : willing B -> key_pair A B S sk pk ->
  imported hA iA KT_SIGNATURE sk -> imported hB iB KT_VERIFY pk ->
  @hrun A S (HSign (Some iA) (Some m) (Some n) true) sA = XRet o tA -> ho_ret o = OK ->
  exists tB, @hrun B S (HVerify (Some iB) (Some m) (Some (ho_1 o))) sB = XRet (HO OK None [] []) tB.
Proof.
  intros WB KP IA IB E O.
  assert (C : complete (HSign (Some iA) (Some m) (Some n) true) = true) by exact (ok_complete _ _ _ _ _ E O ltac:(intros; discriminate)).
  assert (NM : m <> []) by (intros ->; cbn in C; discriminate C).
  destruct S as [x|w].
  - destruct (sign_x _ _ _ _ _ _ _ E O) as (k & F & _ & _ & _ & Q).
    rewrite (held_data _ _ _ FA RA _ _ _ _ IA eq_refl ltac:(discriminate)) in F. apply some_inj in F. subst k. cbn [k_data] in Q.
    pose proof (sz_ed _ ZA sk m) as ZS.
    assert (ZP : zlen pk = 32).
    { pose proof (held_data _ _ _ FB RB _ _ _ _ IB eq_refl ltac:(discriminate)) as F.
      destruct (found _ _ _ FB RB _ _ F) as (kt & raw & I & AT & D). cbn [k_attr k_data] in *.
      destruct (attrs_x_export _ _ _ _ AT eq_refl) as [IN AE].
      assert (KN : kt <> KT_MAKE_KEY_PAIR) by (intros ->; cbn in IN; intuition discriminate). destruct (D KN) as [<- Di]. cbn in Di. lia. }
    eapply (verify_x_willing x hB sB FB WB RB); eauto; rewrite Q; [exact ZS|apply KP].
  - destruct (sign_w _ _ _ _ _ _ _ E O) as (k & c & g & l & F & U & AA & CB & N & Z & Q).
    rewrite (held_data _ _ _ FA RA _ _ _ _ IA eq_refl ltac:(discriminate)) in F. apply some_inj in F. subst k. cbn [k_data k_attr a_bits] in *.
    destruct (shipped_w _ SH) as [F1 F2 F3 F4 F5 F6]. rewrite F2, F5 in CB. injection CB as <-.
    eapply (verify_w_willing w hB sB FB ZB WB SH RB); eauto; [|rewrite Q; apply KP].
    rewrite Z. exact N.
Qed.
End Two.
