(** Calls of the classic suites that must succeed when the libraries are willing. *)
From Coq Require Import Znumtheory.
From Verif Require Import Bytes Facts Values Monad Psa SuiteX SuiteW SuiteCalls SuiteSpec SuiteLogic SuiteProofs SuiteStore SuiteOps SuitePoint.

Lemma wp_total {A} (m : X A) s (Q : A -> xst -> Prop) :
  wp (fun _ => False) m s Q -> exists a s', m s = XRet a s' /\ Q a s'.
Proof. unfold wp. destruct (m s) as [a s'|]; [eauto|tauto]. Qed.
Lemma zlen_pos {A} (l : list A) : l <> [] -> (zlen l =? 0) = false.
Proof. destruct l; [congruence|]. intros _. unfold zlen. cbn. lia. Qed.

Section Accept.
Context {L : libs} (W : willing L).
Lemma op_total (m : X hout) s o : wp (fun _ => False) m s (fun o' _ => o' = o) -> exists s', m s = XRet o s'.
Proof. intros H. apply wp_total in H. destruct H as (a & s' & E & ->). eauto. Qed.
Ltac ac_start :=
  apply op_total; unfold hrun, out1, outk, x_key_agreement, x_signature, x_verify, x_make_key_pair, x_key_destroy,
    w_key_agreement, w_signature, w_verify, w_make_key_pair, w_key_destroy, s_extract, s_expand, s_encrypt, s_decrypt, s_hash,
    X25519_KEY, X25519_SHARED, ED25519_PUB, ED25519_PRIV, ED25519_SIGN;
  repeat match goal with H : _ <> [] |- _ => apply zlen_pos in H; rewrite H end.
Ltac ac_simp :=
  cbn [x_op x_keys x_pk log set_op set_pk set_keys k_attr k_data a_alg a_type a_bits a_usage fst snd
       orb andb negb Psa.d_alg Psa.d_salt Psa.d_key Psa.d_info Psa.d_cap]; rewrite ?alg_eqb_refl; cbn [andb].
Ltac ac_inner t :=
  lazymatch t with
  | match ?x with _ => _ end => ac_inner x
  | find_key _ _ => match goal with K : t = _ |- _ => rewrite K end
  | x_op _ => match goal with K : t = _ |- _ => rewrite K end
  | curve_of_bits _ => match goal with K : t = _ |- _ => rewrite K end
  | x_open _ _ _ _ _ _ => match goal with K : t = _ |- _ => rewrite K end
  | _ => lazymatch type of t with
         | bool => first [ replace t with true by (symmetry; (reflexivity || lia || congruence))
                         | replace t with false by (symmetry; (reflexivity || lia || congruence)) ]
         end
  end.
Ltac ac_step :=
  lazymatch goal with
  | |- wp _ (match ?x with _ => _ end) _ _ => ac_inner x
  | |- match ?x with _ => _ end => ac_inner x
  | |- _ => wp_step; try (match goal with H : ?e = x_status _ _, K : ?e <> 0 |- _ => exfalso; apply K; rewrite H; apply W end)
  end; ac_simp; cbv beta iota.
Ltac ac_go := ac_simp; repeat ac_step.

Lemma extract_accepts S id d b h sa n s :
  closed s -> find_key id (x_keys s) = Some (PK (At [UDerive] (AlgExtract h) TyDerive b) d) ->
  sa <> [] -> 0 < n <= hash_size h ->
  exists s', hrun S (HExtract (Some id) (Some sa) (Some n) true) s = XRet (HO OK None (take n (x_extract h sa d)) []) s'.
Proof.
  intros [C _] K N R. ac_start. replace (n =? 0) with false by lia. cbn [orb negb].
  ac_go. reflexivity.
Qed.
Lemma expand_accepts S id d b h i n s :
  closed s -> find_key id (x_keys s) = Some (PK (At [UDerive] (AlgExpand h) TyDerive b) d) ->
  i <> [] -> 0 < n <= 255 * hash_size h ->
  exists s', hrun S (HExpand (Some id) (Some i) (Some n)) s = XRet (HO OK None (x_expand h d i n) []) s'.
Proof.
  intros [C _] K N R. ac_start. replace (n =? 0) with false by lia. ac_go. reflexivity.
Qed.
Lemma encrypt_accepts S id d f t ty b iv ad p n s :
  find_key id (x_keys s) = Some (PK (At [UEncrypt] (AlgAead f t) ty b) d) ->
  iv <> [] -> ad <> [] -> 0 < n -> zlen (x_seal f t d iv ad p) <= n ->
  exists s', hrun S (HEncrypt (Some id) (Some iv) (Some ad) p (Some n) true) s = XRet (HO OK None (x_seal f t d iv ad p) []) s'.
Proof.
  intros K N1 N2 N R. ac_start. replace (n =? 0) with false by lia. ac_go. reflexivity.
Qed.
Lemma decrypt_accepts S id d f t ty b iv ad c p n s :
  find_key id (x_keys s) = Some (PK (At [UDecrypt] (AlgAead f t) ty b) d) ->
  iv <> [] -> ad <> [] -> c <> [] -> x_open f t d iv ad c = Some p -> zlen p <= n ->
  exists s', hrun S (HDecrypt (Some id) (Some iv) (Some ad) (Some c) n true) s = XRet (HO OK None p []) s'.
Proof.
  intros K N1 N2 N O R. ac_start. ac_go. reflexivity.
Qed.
Lemma hash_accepts S i n s : i <> [] -> 0 < n -> zlen (x_hash (hash_of S) i) <= n ->
  exists s', hrun S (HHash (Some i) (Some n) true) s = XRet (HO OK None (x_hash (hash_of S) i) []) s'.
Proof.
  intros N R Z. ac_start. replace (n =? 0) with false by lia. ac_go. reflexivity.
Qed.
Lemma agree_x_accepts S id d a pk s :
  find_key id (x_keys s) = Some (PK a d) -> may_use UExport a = true -> zlen d = 32 -> zlen pk = 32 ->
  exists s', hrun (SX S) (HAgree (Some id) (Some pk) (Some 32) true) s = XRet (HO OK None (x_smult pk (prepare d)) []) s'.
Proof. intros K U D P. ac_start. rewrite P. ac_go. reflexivity. Qed.
Lemma sign_x_accepts S id d a m s :
  find_key id (x_keys s) = Some (PK a d) -> may_use UExport a = true -> zlen d = 64 -> m <> [] ->
  exists s', hrun (SX S) (HSign (Some id) (Some m) (Some 64) true) s = XRet (HO OK None (x_ed_sign d m) []) s'.
Proof. intros K U D N. ac_start. ac_go. reflexivity. Qed.
Lemma verify_x_accepts S id d a m sg s :
  find_key id (x_keys s) = Some (PK a d) -> may_use UExport a = true -> zlen d = 32 -> m <> [] -> zlen sg = 64 ->
  x_ed_ok sg d m = true ->
  exists s', hrun (SX S) (HVerify (Some id) (Some m) (Some sg)) s = XRet (HO OK None [] []) s'.
Proof. intros K U D N G V. ac_start. rewrite G. ac_go. reflexivity. Qed.
Lemma mkpair_x_accepts S id np nu s : 32 <= np -> 32 <= nu ->
  exists seed s', hrun (SX S) (HMkPair (Some id) (Some np) true (Some nu) true) s
    = XRet (HO OK None (fst (x_keygen seed)) (snd (x_keygen seed))) s'.
Proof.
  intros A B. exists (x_random (x_log s) 32). ac_start. ac_go. destruct (x_keygen _). ac_go. reflexivity.
Qed.

Record wfits (S : wsuite) : Prop := {
  wf_uncomp : ws_uncomp S = 2 * cv_len (ws_curve S) + 1;
  wf_ecc : cs_ecc (ws_table S) = cv_len (ws_curve S);
  wf_ecdh : ws_ecdh S = cv_len (ws_curve S);
  wf_sign : cs_sign (ws_table S) = 2 * cv_len (ws_curve S);
  wf_bits : curve_of_bits (8 * cv_len (ws_curve S)) = Some (ws_curve S);
  wf_hash : cs_hash (ws_table S) = hash_size (ws_hash S)
}.
Lemma cv_pos c : 0 < cv_len c. Proof. destruct c; reflexivity. Qed.
Lemma hash_pos h : 0 < hash_size h. Proof. destruct h; reflexivity. Qed.
Lemma zlen_nil0 : zlen (@nil Z) = 0. Proof. reflexivity. Qed.
Lemma sign_w_accepts S id d h u m s : wfits S -> sized L ->
  find_key id (x_keys s) = Some (PK (At u (AlgEcdsa h) TyEccPair (8 * cs_ecc (ws_table S))) d) -> h = ws_hash S ->
  may_use USignHash (At u (AlgEcdsa h) TyEccPair (8 * cs_ecc (ws_table S))) = true -> m <> [] ->
  exists l s', hrun (SW S) (HSign (Some id) (Some m) (Some (cs_sign (ws_table S))) true) s
    = XRet (HO OK None (x_ecdsa l (ws_curve S) d (x_hash (ws_hash S) m)) []) s'.
Proof.
  intros [F1 F2 F3 F4 F5 F6] SZ K -> U N. rewrite F2 in K, U.
  pose proof (cv_pos (ws_curve S)). pose proof (hash_pos (ws_hash S)). pose proof (sz_hash _ SZ (ws_hash S) m).
  eexists. ac_start. ac_go. rewrite (sz_ecdsa _ SZ). ac_go. rewrite (sz_ecdsa _ SZ). ac_go. reflexivity.
Qed.
Lemma verify_w_accepts S id d h u m sg s : wfits S -> sized L ->
  find_key id (x_keys s) = Some (PK (At u (AlgEcdsa h) TyEccPub (8 * cs_ecc (ws_table S))) d) -> h = ws_hash S ->
  may_use UVerifyHash (At u (AlgEcdsa h) TyEccPub (8 * cs_ecc (ws_table S))) = true -> m <> [] -> zlen sg = cs_sign (ws_table S) ->
  x_ecdsa_ok (ws_curve S) d (x_hash (ws_hash S) m) sg = true ->
  exists s', hrun (SW S) (HVerify (Some id) (Some m) (Some sg)) s = XRet (HO OK None [] []) s'.
Proof.
  intros [F1 F2 F3 F4 F5 F6] SZ K -> U N G V. rewrite F2 in K, U.
  pose proof (cv_pos (ws_curve S)). pose proof (hash_pos (ws_hash S)). pose proof (sz_hash _ SZ (ws_hash S) m).
  ac_start. ac_go. all: try rewrite V; ac_go. all: reflexivity.
Qed.
Lemma mkpair_w_accepts S id d u np nu s : wfits S ->
  find_key id (x_keys s) = Some (PK (At u AlgEcdh TyEccPair (8 * cs_ecc (ws_table S))) d) ->
  may_use UExport (At u AlgEcdh TyEccPair (8 * cs_ecc (ws_table S))) = true -> zlen d = cs_ecc (ws_table S) ->
  zlen d <= np -> 0 < nu <= 2 * cv_len (ws_curve S) ->
  exists s', hrun (SW S) (HMkPair (Some id) (Some np) true (Some nu) true) s
    = XRet (HO OK None d (take nu (drop 1 (arr_read (ws_uncomp S)
         (point (ws_curve S) (fst (x_public (ws_curve S) d)) (snd (x_public (ws_curve S) d))))))) s'.
Proof.
  intros [F1 F2 F3 F4 F5 F6] K U D NP NU. rewrite F2 in *.
  pose proof (cv_pos (ws_curve S)).
  ac_start. ac_go. destruct (x_public (ws_curve S) d) as [x y].
  assert (PL : zlen (point (ws_curve S) x y) = 2 * cv_len (ws_curve S) + 1).
  { unfold point. rewrite zlen_cons, zlen_app, !zlen_be. pose proof (cv_bounds (ws_curve S)). lia. }
  ac_go; try lia. reflexivity.
Qed.
Lemma agree_w_accepts S id d pk y s : wfits S -> sized L -> prime (cv_p (ws_curve S)) ->
  find_key id (x_keys s) = Some (PK (At [UDerive] AlgEcdh TyEccPair (8 * cs_ecc (ws_table S))) d) ->
  zlen pk = cs_ecc (ws_table S) -> on_curve (ws_curve S) (unbe pk) y = true -> y <> 0 ->
  exists s' y', (y' = y \/ y' = cv_p (ws_curve S) - y)
   /\ hrun (SW S) (HAgree (Some id) (Some pk) (Some (ws_ecdh S)) true) s
       = XRet (HO OK None (x_ecdh (ws_curve S) d (unbe pk) y') []) s'.
Proof.
  intros [F1 F2 F3 F4 F5 F6] SZ P K LP OC NZ. rewrite F2 in *.
  pose proof (cv_pos (ws_curve S)). destruct (y_found _ _ _ P OC NZ) as [OC' Y'].
  destruct (decompressed_parts (ws_curve S) pk LP) as (D1 & D2 & D3).
  pose proof (point_ok_iff (ws_curve S) pk LP) as PO. rewrite OC' in PO.
  cut (exists s', hrun (SW S) (HAgree (Some id) (Some pk) (Some (ws_ecdh S)) true) s
       = XRet (HO OK None (x_ecdh (ws_curve S) d (unbe pk) (y_of (ws_curve S) pk)) []) s').
  { intros [s' E]. exists s', (y_of (ws_curve S) pk). split; assumption. }
  ac_start. rewrite F2, F3, LP.
  replace (cv_len (ws_curve S) =? 0) with false by lia. rewrite Z.eqb_refl. ac_simp.
  ac_step. ac_step. ac_step. ac_step. ac_step. ac_step. ac_step. ac_step.
  eapply wp_mono; [apply decompress_ok; lia|]. intros [r q] s1 (K1 & _ & _ & Q & R). cbn [fst snd] in Q, R.
  rewrite (R W) in *. specialize (Q eq_refl). subst q. ac_simp.
  ac_step. ac_step. ac_step. ac_step. ac_step. ac_step. rewrite K1. ac_simp.
  rewrite K. ac_go. rewrite K1. ac_simp. rewrite K. ac_go. rewrite (sz_ecdh _ SZ). ac_go. rewrite D1, D2. reflexivity.
Qed.
End Accept.
