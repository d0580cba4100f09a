(** The claims about the classic suites. *)
From Coq Require Import Znumtheory.
From Verif Require Import Bytes Facts Values Monad Psa SuiteX SuiteW SuiteCalls SuiteSpec SuiteLogic SuiteProofs SuiteStore SuiteOps SuitePoint SuiteAccept.

Lemma shipped_cases S : shipped S -> S = SX suite_0 \/ S = SX suite_4 \/ S = SW suite_2 \/ S = SW suite_24.
Proof. cbn. intuition (subst; auto). Qed.
Lemma shipped_w w : shipped (SW w) -> wfits w.
Proof.
  intros H. apply shipped_cases in H. destruct H as [H|[H|[H|H]]]; try discriminate H; injection H as ->;
    split; reflexivity.
Qed.
Lemma attrs_kept S kt n : attrs_for S kt n <> None <-> kept S kt.
Proof.
  unfold kept, attrs_for, KT_MAKE_KEY_PAIR. destruct S as [x|w].
  - unfold x_attrs, KT_KEY_AGREEMENT, KT_SIGNATURE, KT_VERIFY, KT_EXTRACT, KT_EXPAND, KT_ENCRYPT, KT_DECRYPT. split.
    + intros H. left. repeat match type of H with context [if ?b then _ else _] => destruct b eqn:? end; lia || congruence.
    + intros [H|[_ [w H]]]; [|discriminate].
      repeat match goal with |- context [if ?b then _ else _] => destruct b eqn:? end; lia || discriminate.
  - unfold w_attrs, KT_MAKE_KEY_PAIR, KT_KEY_AGREEMENT, KT_SIGNATURE, KT_VERIFY, KT_EXTRACT, KT_EXPAND, KT_ENCRYPT, KT_DECRYPT. split.
    + intros H. repeat match type of H with context [if ?b then _ else _] => destruct b eqn:? end; try congruence;
        try (left; lia). right. split; [lia|eauto].
    + intros H. assert (0 <= kt <= 7) by (destruct H as [H|[H _]]; lia).
      repeat match goal with |- context [if ?b then _ else _] => destruct b eqn:? end; lia || discriminate.
Qed.

Section Claims.
Context {L : libs}.

Lemma success S a s o s' : hrun S a s = XRet o s' -> ho_ret o = OK ->
  exists l, x_log s' = l ++ x_log s /\ Forall (fun e => snd e = 0) l.
Proof. intros R O. destruct (po_log _ _ _ _ (hrun_post' _ _ _ _ _ R)) as (l & E & F). eauto. Qed.
Lemma codes_only S a s o s' : hrun S a s = XRet o s' ->
  (ho_ret o = OK \/ ho_ret o = E_INVALID_ARG \/ ho_ret o = E_CRYPTO) /\ (ho_ret o = E_INVALID_ARG -> s' = s).
Proof.
  intros R. pose proof (hrun_post' _ _ _ _ _ R) as P. split; [|apply (po_arg _ _ _ _ P)].
  destruct (po_code _ _ _ _ P) as [E|[E|[E|[]]]]; auto.
Qed.
Lemma ok_complete S a s o s' : hrun S a s = XRet o s' -> ho_ret o = OK -> (forall kt raw k, a <> HImport kt raw k) ->
  complete a = true.
Proof.
  intros R O N. destruct (complete a) eqn:C; [reflexivity|]. rewrite (hrun_refuse S a s C N) in R.
  injection R as <- <-. discriminate O.
Qed.
(** No resource stays open. *)
Lemma reached_closed S h s : reached S h s -> closed s.
Proof. intros [l R]. eapply closed_runs; [|exact R]. split; reflexivity. Qed.
Lemma reached_keyed S h s (FI : fresh_ids L) : reached S h s -> keyed S h s.
Proof. intros [l R]. eapply keyed_runs; eauto. Qed.
Lemma reached_step S h s a o s' : reached S h s -> hrun S a s = XRet o s' -> reached S (h ++ [(a, o)]) s'.
Proof.
  intros [l R] E. exists (l ++ [a]). revert h s R E. generalize xs0.
  induction l as [|b l IH]; cbn; intros s0 h s R E.
  - injection R as <- <-. now rewrite E.
  - destruct (hrun S b s0) as [ob s1|]; [|discriminate]. destruct (hruns S l s1) as [os s2|] eqn:E2; [|discriminate].
    injection R as <- <-. now rewrite (IH _ _ _ E2 E).
Qed.

(** The key store. *)
Lemma store_exact S h s id : fresh_ids L -> reached S h s ->
  ((exists k, find_key id (x_keys s) = Some k) <-> exists kt raw, kept S kt /\ imported h id kt raw).
Proof.
  intros FI R. destruct (reached_keyed _ _ _ FI R) as [K1 K2]. split.
  - intros [k F]. destruct (K1 _ _ F) as (_ & kt & raw & I & A & _). exists kt, raw. split; [|exact I].
    apply (attrs_kept S kt (zlen raw)). now rewrite A.
  - intros (kt & raw & KP & I). apply (attrs_kept S kt (zlen raw)) in KP.
    destruct (attrs_for S kt (zlen raw)) as [a|] eqn:A; [|congruence].
    destruct (K2 _ _ _ _ I A) as (k & F & _). eauto.
Qed.
Lemma import_fresh S h s kt raw kid o s' id : fresh_ids L -> reached S h s -> kept S kt ->
  hrun S (HImport kt raw kid) s = XRet o s' -> ho_ret o = OK -> ho_kid o = Some id ->
  id <> 0 /\ (forall kt' raw', kept S kt' -> ~ imported h id kt' raw').
Proof.
  intros FI R KP E O OK_. destruct (import_spec _ _ _ _ _ _ _ E) as (_ & _ & [(_ & A & _)|[(O' & _)|(a & d & i & _ & Ok & A & Ei & ZK & EK & _)]]).
  - apply (attrs_kept S kt (zlen raw)) in KP. congruence.
  - rewrite O in O'. discriminate.
  - rewrite OK_ in Ok. injection Ok as <-.
    destruct (FI (x_log s) (map fst (x_keys s)) ltac:(rewrite zlen_map; exact ZK)) as [NI RG]. rewrite <- Ei in NI, RG.
    split; [lia|]. intros kt' raw' KP' I. apply NI.
    destruct (proj2 (store_exact S h s id FI R)) as [k F]; [eauto|]. eapply find_key_in; eauto.
Qed.
Lemma import_failed S kt raw kid s o s' : hrun S (HImport kt raw kid) s = XRet o s' -> ho_ret o <> OK ->
  x_keys s' = x_keys s /\ (ho_kid o = kid \/ ho_kid o = Some 0).
Proof.
  intros E N. destruct (import_spec _ _ _ _ _ _ _ E) as (_ & _ & [(O & _)|[(O' & EK & D)|(a & d & i & O & _)]]); try congruence.
  split; [exact EK|]. tauto.
Qed.
Lemma destroy_clears S id s o s' : hrun S (HDestroy (Some id)) s = XRet o s' ->
  ho_kid o = Some 0 /\ (forall i, i <> id -> find_key i (x_keys s') = find_key i (x_keys s))
  /\ (ho_ret o = OK -> id <> 0 -> find_key id (x_keys s') = None).
Proof.
  intros E. destruct (destroy_spec _ _ _ _ _ E) as [(? & _)|(i & Ei & K & D)]; [discriminate|]. injection Ei as <-.
  split; [exact K|]. destruct D as [(O & EK)|(O & [(-> & EK)|(NZ & _ & EK)])]; rewrite EK.
  - split; [auto|]. intros O'. rewrite O in O'. discriminate.
  - split; [auto|]. intros _ N. congruence.
  - split.
    + intros j N. rewrite find_key_drop. replace (j =? id) with false by lia. reflexivity.
    + intros _ _. now rewrite find_key_drop, Z.eqb_refl.
Qed.

(** ** What the operations compute *)
Context (S : suite) (h : list (hcall * hout)) (s : xst).
Context (FI : fresh_ids L) (SH : shipped S) (RE : reached S h s).
Lemma found id k : find_key id (x_keys s) = Some k -> exists kt raw, imported h id kt raw /\
  attrs_for S kt (zlen raw) = Some (k_attr k) /\ (kt <> KT_MAKE_KEY_PAIR -> k_data k = raw /\ import_ok (k_attr k) raw = true).
Proof. intros F. destruct (reached_keyed _ _ _ FI RE) as [K1 _]. exact (proj2 (K1 _ _ F)). Qed.
Lemma op_extract id salt n o s' :
  hrun S (HExtract (Some id) (Some salt) (Some n) true) s = XRet o s' -> ho_ret o = OK ->
  exists ikm, imported h id KT_EXTRACT ikm /\ n <= hash_size (hash_of S) /\ ho_1 o = take n (x_extract (hash_of S) salt ikm).
Proof.
  intros E O. destruct (extract_ok _ _ _ _ _ _ _ E O) as (k & g & F & A & N & Q).
  destruct (found _ _ F) as (kt & raw & I & AT & D). destruct (attrs_extract _ _ _ _ _ AT A) as [-> ->].
  exists raw. split; [exact I|]. split; [exact N|]. now rewrite Q, (proj1 (D ltac:(discriminate))).
Qed.
Lemma op_expand id info n o s' :
  hrun S (HExpand (Some id) (Some info) (Some n)) s = XRet o s' -> ho_ret o = OK ->
  exists prk, imported h id KT_EXPAND prk /\ ho_1 o = x_expand (hash_of S) prk info n.
Proof.
  intros E O. destruct (expand_ok _ _ _ _ _ _ _ E O) as (k & g & F & A & N & Q).
  destruct (found _ _ F) as (kt & raw & I & AT & D). destruct (attrs_expand _ _ _ _ _ AT A) as [-> ->].
  exists raw. split; [exact I|]. now rewrite Q, (proj1 (D ltac:(discriminate))).
Qed.
Lemma op_encrypt id iv ad p n o s' :
  hrun S (HEncrypt (Some id) (Some iv) (Some ad) p (Some n) true) s = XRet o s' -> ho_ret o = OK ->
  exists key, imported h id KT_ENCRYPT key /\ zlen key = cs_key (table S)
    /\ ho_1 o = x_seal (aead_of S) (cs_tag (table S)) key iv ad p /\ zlen (ho_1 o) <= n.
Proof.
  intros E O. destruct (encrypt_ok _ _ _ _ _ _ _ _ _ E O) as (k & f & t & F & A & U & Q & Z).
  destruct (found _ _ F) as (kt & raw & I & AT & D). destruct (attrs_encrypt _ _ _ _ AT U) as [-> A'].
  rewrite A in A'. injection A' as -> ->. destruct (D ltac:(discriminate)) as [Dd Di].
  exists raw. split; [exact I|]. rewrite Q, Dd in *. repeat split; auto.
  revert AT Di. destruct (shipped_cases _ SH) as [-> | [-> | [-> | ->]]]; intros [= <-]; cbn; lia.
Qed.
Lemma op_decrypt id iv ad c n o s' :
  hrun S (HDecrypt (Some id) (Some iv) (Some ad) (Some c) n true) s = XRet o s' -> ho_ret o = OK ->
  exists key, imported h id KT_DECRYPT key /\ zlen key = cs_key (table S)
    /\ x_open (aead_of S) (cs_tag (table S)) key iv ad c = Some (ho_1 o) /\ zlen (ho_1 o) <= n.
Proof.
  intros E O. destruct (decrypt_ok _ _ _ _ _ _ _ _ _ E O) as (k & f & t & F & A & U & Q & Z).
  destruct (found _ _ F) as (kt & raw & I & AT & D). destruct (attrs_decrypt _ _ _ _ AT U) as [-> A'].
  rewrite A in A'. injection A' as -> ->. destruct (D ltac:(discriminate)) as [Dd Di].
  exists raw. split; [exact I|]. rewrite Dd in *. repeat split; auto.
  revert AT Di. destruct (shipped_cases _ SH) as [-> | [-> | [-> | ->]]]; intros [= <-]; cbn; lia.
Qed.
End Claims.
