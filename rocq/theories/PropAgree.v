(** Properties C09, C14, C17, C18, C25: what two honest peers agree on.
    [exchange], [later], [obeys] and the RFC formulas are the specification in Sessions.v,
    Conform.v, Uses.v and Rfc.v. *)
From Verif Require Import Monad Api Common Msg1 Msg2 Msg3 Msg4 Exporter History Spec Rfc Uses
  Conform Sessions Agree Claims Demo DemoX.

(** The demonstration exchange: method 1 (responder static DH), key identifiers, EAD, and its later calls. *)
Definition ex_k : knobs := knobs_kid.
Definition ex_a : trip := pt_i (demo_trips ex_k 1).
Definition ex_b : trip := pt_r (demo_trips ex_k 1).
(** [kid_1] is the exchange, written out. *)
Definition ex_later_a := Eval vm_compute in after (demo_env ex_k) (s3 (pt_i kid_1)) later_i.
Definition ex_later_b := Eval vm_compute in after (demo_env ex_k) (s3 (pt_r kid_1)) later_r.
Example ex_later_is : after (demo_env ex_k) (s3 ex_a) later_i = ex_later_a /\ after (demo_env ex_k) (s3 ex_b) later_r = ex_later_b.
Proof. unfold ex_a, ex_b, ex_k. rewrite kid_1_is. split; [vm_cast_no_check (eq_refl ex_later_a)|vm_cast_no_check (eq_refl ex_later_b)]. Qed.
Example exchange_holds : demo_exchange_of ex_k 1.
Proof. exact (demo_exchange _ _ demo_ok_1). Qed.
Example exchange_holds_for_every_method : forall k m, In k [knobs0; knobs_kid] -> In m [0; 1; 2; 3] ->
  demo_exchange_of k m.
Proof.
  intros k m [<-|[<-|[]]] M; apply demo_exchange; [exact (demo_runs_0 m M)|exact (demo_runs_kid m M)].
Qed.
Example later_holds_a : @later (demo_env ex_k) (s3 ex_a) (fst ex_later_a) (snd ex_later_a) /\
  obeys toy sk_demo (snd ex_later_a) /\ expands_ok (snd ex_later_a).
Proof. rewrite <- (proj1 ex_later_is). apply after_later. unfold ex_a, ex_k. rewrite kid_1_is. vm_cast_no_check (eq_refl true). Qed.
Example later_holds_b : @later (demo_env ex_k) (s3 ex_b) (fst ex_later_b) (snd ex_later_b) /\
  obeys toy sk_demo (snd ex_later_b) /\ expands_ok (snd ex_later_b).
Proof. rewrite <- (proj2 ex_later_is). apply after_later. unfold ex_b, ex_k. rewrite kid_1_is. vm_cast_no_check (eq_refl true). Qed.
(** The fourth answer of the one and the second of the other are exports after the same key
    update; the fifth and third are OSCORE exports. *)
Definition nth_of (rs : list result) (i : nat) : result := nth i rs (AInit, (1, ONone)).
Example later_exports :
  (exists s, export_of (nth_of (fst ex_later_a) 3) 40000 16 s) /\
  (exists s, export_of (nth_of (fst ex_later_b) 1) 40000 16 s) /\
  entropies (firstn 3 (fst ex_later_a)) = [[7; 8]] /\ entropies (firstn 1 (fst ex_later_b)) = [[7; 8]] /\
  (exists a b c d, oscore_of (nth_of (fst ex_later_a) 4) 16 8 a b c d) /\
  (exists a b c d, oscore_of (nth_of (fst ex_later_b) 2) 16 8 a b c d).
Proof.
  split; [eexists; exists true; vm_compute; reflexivity|]. split; [eexists; exists true; vm_compute; reflexivity|].
  split; [vm_compute; reflexivity|]. split; [vm_compute; reflexivity|].
  split; [do 4 eexists; exists true, 64, 64; vm_compute; reflexivity|].
  do 4 eexists; exists true, 64, 64; vm_compute; reflexivity.
Qed.

(** ** C09 *)
Theorem C09_message_1_arrives : forall EI ER p sk_i sk_r a0 a1 e nn n t b0 b1 f nn' t' m1,
  @configured EI a0 -> @configured ER b0 ->
  @message_1_compose EI nn n (Wd a0 t) = Ret (OK, m1) (Wd a1 (e ++ t)) ->
  @message_1_process ER nn' m1 (Wd b0 t') = Ret OK (Wd b1 (f ++ t')) ->
  is_message m1 -> typed a0 e -> obeys p sk_i e -> obeys p sk_r f -> 0 <= cs_ecc (my_suite b0) ->
  (cs_value (my_suite a0) = cs_value (my_suite b0) -> my_suite a0 = my_suite b0) ->
  c_chosen_method b1 = my_method a0 /\
  take (c_peer_csuite_len b1) (c_peer_csuites b1) = map cs_value (take (c_csuite_len a0) (c_csuites a0)) /\
  made e (priv_of a1) (peer_of b1) /\
  cid_rfc (c_peer_cid b1) = cid_rfc (c_cid a0) /\
  th_of b1 = th_of a1 /\ hashed e m1 (cs_hash (my_suite a0)) (th_of a1).
Proof. exact message_1_arrives. Qed.
Print Assumptions C09_message_1_arrives.

(** ** C14 *)
Theorem C14_keystream_cancels : forall a k, zlen k = zlen a -> xor_bytes (xor_bytes a k) k = a.
Proof. exact xor_twice. Qed.
Print Assumptions C14_keystream_cancels.
Example C14_case : xor_bytes (xor_bytes [1; 2; 3] [200; 7; 255]) [200; 7; 255] = [1; 2; 3].
Proof. reflexivity. Qed.
(** Message 2 carries a plaintext under a keystream; the initiator derives the same keystream,
    and the plaintext it puts into TH_3 is the responder's. *)
Theorem C14_plaintext_2_recovered : forall EI ER p sk_i sk_r a b m1 m2 m3,
  exchange EI ER p sk_i sk_r a b m1 m2 m3 ->
  exists g_y ptxt ks prk2e th2 h cred cred' th3 th3',
    m2 = cbor (Bstr (g_y ++ xor_bytes ptxt ks)) /\
    expanded (ev2 b) prk2e (info KEYSTREAM_2 th2 (zlen ptxt)) (zlen ptxt) ks /\
    hashed (ev2 b) (cbor (Bstr th2) ++ ptxt ++ cred) h th3 /\
    expanded (ev2 a) prk2e (info KEYSTREAM_2 th2 (zlen ptxt)) (zlen ptxt) ks /\
    hashed (ev2 a) (cbor (Bstr th2) ++ ptxt ++ cred') h th3'.
Proof. exact keystream_2. Qed.
Print Assumptions C14_plaintext_2_recovered.

(** ** C17 *)
Theorem C17_same_secrets : forall EI ER p sk_i sk_r a b m1 m2 m3,
  exchange EI ER p sk_i sk_r a b m1 m2 m3 ->
  c_status (s3 a) = SM_COMPLETED /\ c_status (s3 b) = SM_COMPLETED /\
  c_th_state (s3 a) = TH_4 /\ c_th_state (s3 b) = TH_4 /\ th_of (s3 a) = th_of (s3 b) /\
  c_prk_state (s3 a) = PRK_4E3M /\ c_prk_state (s3 b) = PRK_4E3M /\ prk_of (s3 a) = prk_of (s3 b).
Proof. exact same_secrets. Qed.
Print Assumptions C17_same_secrets.
(** In any later histories of the two sides, exports made after the same key updates agree. *)
Theorem C17_same_exports : forall EI ER p sk_i sk_r a b m1 m2 m3,
  exchange EI ER p sk_i sk_r a b m1 m2 m3 ->
  forall ra ea ra1 x ra2 rb eb rb1 y rb2 label n sa sb sk sk',
  @later EI (s3 a) ra ea -> obeys p sk ea -> expands_ok ea -> ra = ra1 ++ x :: ra2 ->
  @later ER (s3 b) rb eb -> obeys p sk' eb -> expands_ok eb -> rb = rb1 ++ y :: rb2 ->
  entropies ra1 = entropies rb1 -> 0 <= n < 2 ^ 32 ->
  export_of x label n sa -> export_of y label n sb -> sa = sb.
Proof. exact same_exports. Qed.
Print Assumptions C17_same_exports.

(** ** C18 *)
Theorem C18_oscore_mirror : forall EI ER p sk_i sk_r a b m1 m2 m3,
  exchange EI ER p sk_i sk_r a b m1 m2 m3 ->
  forall ra ea ra1 x ra2 rb eb rb1 y rb2 n1 n2 sa ta ia ja sb tb ib jb sk sk',
  @later EI (s3 a) ra ea -> obeys p sk ea -> expands_ok ea -> ra = ra1 ++ x :: ra2 ->
  @later ER (s3 b) rb eb -> obeys p sk' eb -> expands_ok eb -> rb = rb1 ++ y :: rb2 ->
  entropies ra1 = entropies rb1 -> 0 <= n1 < 2 ^ 32 -> 0 <= n2 < 2 ^ 32 ->
  oscore_of x n1 n2 sa ta ia ja -> oscore_of y n1 n2 sb tb ib jb ->
  sa = sb /\ ta = tb /\ ia = jb /\ ja = ib.
Proof. exact oscore_mirror. Qed.
Print Assumptions C18_oscore_mirror.
(** What they are: exporter outputs for labels 0 and 1, and the connection identifiers. *)
Theorem C18_oscore_values : forall EI ER p sk_i sk_r a b m1 m2 m3,
  exchange EI ER p sk_i sk_r a b m1 m2 m3 ->
  forall rs e rs1 r rs2 n1 n2 sec salt sid rid sk, let h := cs_hash (my_suite (s0 a)) in
  let po := prk_out_after p h (prk_out p h (th_of (s3 a)) (prk_of (s3 a))) rs1 in
  let c_i := oscore_bytes (cid_rfc (c_cid (s0 a))) in
  let c_r := oscore_bytes (cid_rfc (c_cid (s0 b))) in
  obeys p sk e -> expands_ok e -> rs = rs1 ++ r :: rs2 ->
  oscore_of r n1 n2 sec salt sid rid -> 0 <= n1 < 2 ^ 32 -> 0 <= n2 < 2 ^ 32 ->
  (@later EI (s3 a) rs e \/ @later ER (s3 b) rs e ->
     sec = exporter p h po 0 n1 /\ salt = exporter p h po 1 n2) /\
  (@later EI (s3 a) rs e -> sid = c_r /\ rid = c_i) /\
  (@later ER (s3 b) rs e -> sid = c_i /\ rid = c_r).
Proof. exact oscore_formula. Qed.
Print Assumptions C18_oscore_values.

(** ** C25 *)
(** Equal entropies on both sides keep exports equal: [C17_same_exports] with any number of key
    updates before.  The values: PRK_out is replaced by Expand(PRK_out, NEW_PRK_out, entropy)
    at each update, and nothing else in the history matters. *)
Theorem C25_key_updates : forall EI ER p sk_i sk_r a b m1 m2 m3,
  exchange EI ER p sk_i sk_r a b m1 m2 m3 ->
  forall rs e rs1 r rs2 label n sec sk, let h := cs_hash (my_suite (s0 a)) in
  @later EI (s3 a) rs e \/ @later ER (s3 b) rs e -> obeys p sk e -> expands_ok e ->
  rs = rs1 ++ r :: rs2 -> export_of r label n sec -> 0 <= n < 2 ^ 32 ->
  sec = exporter p h (fold_left (fun po en => p_expand p po (info NEW_PRK_out en h) h) (entropies rs1)
                        (p_expand p (prk_of (s3 a)) (info PRK_out (th_of (s3 a)) h) h)) label n.
Proof. exact update_formula. Qed.
Print Assumptions C25_key_updates.
Theorem C25_updated_peers_agree : forall EI ER p sk_i sk_r a b m1 m2 m3,
  exchange EI ER p sk_i sk_r a b m1 m2 m3 ->
  forall ra ea ra1 x ra2 rb eb rb1 y rb2 label n sa sb sk sk',
  @later EI (s3 a) ra ea -> obeys p sk ea -> expands_ok ea -> ra = ra1 ++ x :: ra2 ->
  @later ER (s3 b) rb eb -> obeys p sk' eb -> expands_ok eb -> rb = rb1 ++ y :: rb2 ->
  entropies ra1 = entropies rb1 -> 0 <= n < 2 ^ 32 ->
  export_of x label n sa -> export_of y label n sb -> sa = sb.
Proof. exact same_exports. Qed.
Print Assumptions C25_updated_peers_agree.
