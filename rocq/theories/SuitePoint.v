(** Point decompression and key agreement of the P-256 and P-384 suites. *)
From Coq Require Import Zpow_facts Znumtheory.
From Verif Require Import Bytes Facts Values Monad Psa SuiteX SuiteW SuiteCalls SuiteSpec SuiteLogic SuiteProofs SuiteStore SuiteOps.
From Verif Require CborProofs Fermat.

Section Point.
Context {L : libs}.
(** The root that decompression takes, and the coordinate it sends on. *)
Definition root (c : curve) (x : Z) : Z := Zpow_mod ((x * x - 3) * x + cv_b c) ((cv_p c + 1) / 4) (cv_p c).
Definition y_of (c : curve) (raw : bytes) : Z :=
  let r := root c (unbe raw) in
  if negb (Bool.eqb (nth 0 raw 0 =? 3) (Z.odd r)) then cv_p c - r else r.
Definition decompressed (c : curve) (raw : bytes) : bytes := 4 :: raw ++ be (Z.to_nat (cv_len c)) (y_of c raw).

Lemma decompress_ok F c raw size s :
  2 * cv_len c + 1 <= size -> zlen raw = cv_len c ->
  wp F (ecp_decompress c raw size) s (fun r s' => x_keys s' = x_keys s /\ x_op s' = x_op s /\ x_pk s' = x_pk s
    /\ (fst r = 0 -> snd r = decompressed c raw) /\ (willing L -> fst r = 0)).
Proof.
  intros SZ LR. unfold ecp_decompress.
  replace (size <? 2 * cv_len c + 1) with false by lia. replace (cv_len c <? zlen raw) with false by lia.
  replace (cv_len c <=? zlen raw) with true by lia.
  assert (T : take (cv_len c) raw = raw) by (apply take_all; lia). rewrite T.
  wp_go; try discriminate.
  all: cbn [fst snd x_keys x_op x_pk log]; repeat (split; [reflexivity|]).
  all: split; [intros E0; try contradiction|intros W; try reflexivity; subst; unfold willing in W; try (exfalso; auto; fail)].
  all: try (unfold decompressed, y_of, root; match goal with H : _ = true |- _ => rewrite H | H : _ = false |- _ => rewrite H end; reflexivity).
Qed.
Lemma agree_w S id pk n s o s' :
  ws_uncomp S = 2 * cv_len (ws_curve S) + 1 -> cs_ecc (ws_table S) = cv_len (ws_curve S) ->
  hrun (SW S) (HAgree (Some id) (Some pk) (Some n) true) s = XRet o s' -> ho_ret o = OK ->
  exists k c, find_key id (x_keys s) = Some k /\ may_use UDerive (k_attr k) = true /\ a_alg (k_attr k) = AlgEcdh
    /\ curve_of_bits (a_bits (k_attr k)) = Some c /\ zlen pk = cv_len (ws_curve S) /\ n = ws_ecdh S
    /\ point_ok c (decompressed (ws_curve S) pk) = true
    /\ zlen (ho_1 o) <= n
    /\ ho_1 o = x_ecdh c (k_data k) (unbe (take (cv_len c) (drop 1 (decompressed (ws_curve S) pk))))
                       (unbe (drop (1 + cv_len c) (decompressed (ws_curve S) pk))).
Proof.
  intros U C. wp_start. unfold hrun, out1, w_key_agreement.
  wp_step. destruct ((zlen pk =? 0) || (n =? 0) || negb true) eqn:E1; [wp_go; discriminate|].
  destruct (negb (cs_ecc (ws_table S) =? zlen pk) || negb (ws_ecdh S =? n)) eqn:E2; [wp_go; discriminate|].
  x_clean.
  do 3 (wp_step; try (wp_go; discriminate)). all: do 3 (wp_step; try (wp_go; discriminate)).
  wp_step. eapply wp_mono; [apply decompress_ok; lia|]. intros [r q] s1 (K1 & _ & _ & Q & _). cbn [fst snd] in Q.
  destruct (negb (r =? 0)) eqn:ER; [wp_go; discriminate|]. apply negb_false_iff, Z.eqb_eq in ER. subst r.
  specialize (Q eq_refl). subst q.
  wp_go; cbn [ho_ret ho_1]; intros G; try discriminate G; clear G; x_clean.
  all: rewrite K1 in *; x_clean.
  all: exists p0, c; repeat split; auto; try congruence; lia.
Qed.

(** ** Which keys of a peer are accepted *)
Lemma cv_bounds c : 3 < cv_p c < 256 ^ cv_len c /\ cv_p c mod 4 = 3 /\ cv_len c = Z.of_nat (Z.to_nat (cv_len c)).
Proof. destruct c; vm_compute; repeat split; reflexivity. Qed.
Lemma root_eq c x : root c x = ((x * x - 3) * x + cv_b c) ^ ((cv_p c + 1) / 4) mod cv_p c.
Proof. unfold root. apply Zpow_mod_correct. pose proof (cv_bounds c). lia. Qed.
Lemma root_range c x : 0 <= root c x < cv_p c.
Proof. rewrite root_eq. apply Z_mod_lt. pose proof (cv_bounds c). lia. Qed.
Lemma y_range c raw : 0 <= y_of c raw <= cv_p c.
Proof. unfold y_of. pose proof (root_range c (unbe raw)). destruct (negb _); lia. Qed.
Lemma zlen_be n v : zlen (be n v) = Z.of_nat n.
Proof. revert v. induction n as [|n IH]; intros v; [reflexivity|]. cbn [be]. rewrite zlen_app, IH. cbn [zlen length]. unfold zlen. cbn. lia. Qed.
Lemma decompressed_parts c raw : zlen raw = cv_len c ->
  take (cv_len c) (drop 1 (decompressed c raw)) = raw
  /\ unbe (drop (1 + cv_len c) (decompressed c raw)) = y_of c raw
  /\ zlen (decompressed c raw) = 1 + 2 * cv_len c.
Proof.
  intros LR. pose proof (cv_bounds c) as (B & _ & N). pose proof (y_range c raw).
  unfold decompressed. split; [|split].
  - change (drop 1 (4 :: ?x)) with x. apply take_app_exact. exact LR.
  - rewrite app_comm_cons. rewrite drop_app_exact by (rewrite zlen_cons; lia).
    apply CborProofs.unbe_be. rewrite <- N. lia.
  - rewrite zlen_cons, zlen_app, zlen_be, <- N. lia.
Qed.
Lemma point_ok_iff c raw : zlen raw = cv_len c ->
  point_ok c (decompressed c raw) = on_curve c (unbe raw) (y_of c raw).
Proof.
  intros LR. destruct (decompressed_parts c raw LR) as (A & B & C). unfold point_ok. rewrite A, B, C, Z.eqb_refl.
  reflexivity.
Qed.
Lemma on_curve_iff c x y : on_curve c x y = true <->
  0 <= x < cv_p c /\ 0 <= y < cv_p c /\ (y * y) mod cv_p c = ((x * x - 3) * x + cv_b c) mod cv_p c.
Proof.
  unfold on_curve. rewrite !andb_true_iff, !Z.leb_le, !Z.ltb_lt, Z.eqb_eq. pose proof (cv_bounds c) as (B & _).
  replace (y * y - (x * x * x - 3 * x + cv_b c)) with (y * y - ((x * x - 3) * x + cv_b c)) by ring.
  assert (M : (y * y - ((x * x - 3) * x + cv_b c)) mod cv_p c = 0
              <-> (y * y) mod cv_p c = ((x * x - 3) * x + cv_b c) mod cv_p c).
  { split; intros E.
    - apply Zmod_divide in E; [|lia]. destruct E as [k E].
      replace (y * y) with ((x * x - 3) * x + cv_b c + k * cv_p c) by lia. now rewrite Z_mod_plus_full.
    - rewrite Zminus_mod, E, Z.sub_diag. apply Zmod_0_l. }
  rewrite M. tauto.
Qed.
Lemma square_roots p a b : prime p -> 0 <= a < p -> 0 < b < p -> (a * a) mod p = (b * b) mod p -> a = b \/ a = p - b.
Proof.
  intros P A B E. assert (D : (p | (a - b) * (a + b))).
  { apply Zmod_divide; [lia|]. replace ((a - b) * (a + b)) with (a * a - b * b) by ring.
    rewrite Zminus_mod, E, Z.sub_diag. apply Zmod_0_l. }
  apply prime_mult in D; [|exact P]. destruct D as [[k D]|[k D]].
  - left. assert (k = 0) by nia. lia.
  - right. assert (k = 1) by nia. lia.
Qed.
Lemma y_found c raw y : prime (cv_p c) -> on_curve c (unbe raw) y = true -> y <> 0 ->
  on_curve c (unbe raw) (y_of c raw) = true /\ (y_of c raw = y \/ y_of c raw = cv_p c - y).
Proof.
  intros P O NZ. pose proof (cv_bounds c) as (B & M & _). apply on_curve_iff in O. destruct O as (X & Y & E).
  set (f := (unbe raw * unbe raw - 3) * unbe raw + cv_b c) in *.
  pose proof (Fermat.sqrt_mod (cv_p c) P f y M E) as R. cbv zeta in R. unfold f in R. rewrite <- root_eq in R. fold f in R.
  pose proof (root_range c (unbe raw)) as RR.
  assert (RY : root c (unbe raw) = y \/ root c (unbe raw) = cv_p c - y).
  { apply square_roots; auto; lia || congruence. }
  assert (YY : y_of c raw = y \/ y_of c raw = cv_p c - y).
  { unfold y_of. destruct (negb _); lia. }
  split; [|exact YY]. apply on_curve_iff. split; [exact X|]. split; [lia|]. fold f.
  destruct YY as [-> | ->]; [exact E|]. rewrite <- E.
  replace ((cv_p c - y) * (cv_p c - y)) with (y * y + (cv_p c - 2 * y) * cv_p c) by ring.
  now rewrite Z_mod_plus_full.
Qed.
End Point.
